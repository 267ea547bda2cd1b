{"id": "C01", "title": "Frame round trip", "statement": "The octets produced by writing a datagram of 1 to 65535 octets, when consumed one at a time by a receiver that has been armed with a buffer at least as large as the datagram, make the receiver report completion exactly on the last octet, with the buffer holding exactly the datagram, the reported length equal to the datagram length, and the received sequence number equal to the one the sender used.", "quantifier": "all datagrams of length 1..65535 over all octet values, all sender sequence numbers, all receiver buffer sizes at least the datagram length, all previous receiver states", "why_tests_cant": "the octet values, escapes and lengths form an unbounded space; tests try a handful of datagrams", "anchors": ["Diminuto/src/diminuto_framer.c: diminuto_framer_machine, diminuto_framer_emit, diminuto_framer_writer", "Diminuto/inc/com/diag/diminuto/diminuto_framer.h"]}
{"id": "C02", "title": "Frame transparency", "statement": "Between the leading run of flag octets and the final newline, an emitted frame contains no flag, newline, XON or XOFF octet, whatever the datagram contains; so software flow control and frame delimiting can never be confused by payload data.", "quantifier": "all datagrams and all sequence numbers", "why_tests_cant": "holds or fails depending on arbitrary octet values, checksum values and sequence numbers", "anchors": ["Diminuto/src/diminuto_framer.c: diminuto_framer_emit, diminuto_framer_writer"]}
{"id": "C03", "title": "Framer buffer safety", "statement": "For any stream of input tokens whatsoever (including noise, truncated frames and EOF) and any buffer size, the receiver state machine stores octets only at offsets inside the armed buffer, and inside its fixed header arrays.", "quantifier": "all token streams of any length, all buffer sizes, all interleavings with re-arming the buffer", "why_tests_cant": "an adversarial or noisy line can present any token stream", "anchors": ["Diminuto/src/diminuto_framer.c: diminuto_framer_machine", "Diminuto/inc/com/diag/diminuto/diminuto_framer.h: diminuto_framer_set"]}
{"id": "C04", "title": "Framer acceptance soundness", "statement": "Whenever the receiver reports completion of a frame, the octets it consumed last (ignoring XON and XOFF) form a frame whose header satisfies the header Fletcher-16 checksum, whose payload satisfies the Kermit CRC-16, whose length field is the number of payload octets, and whose payload is exactly what is in the buffer and reported to the application.", "quantifier": "all token streams and all buffer sizes", "why_tests_cant": "the set of corrupted streams is unbounded", "anchors": ["Diminuto/src/diminuto_framer.c: diminuto_framer_machine"]}
{"id": "C05", "title": "Framer resynchronisation", "statement": "From any receiver state that is not terminal, after any noise that completed no frame, a well-formed frame that follows is received intact, unless the noise ended in an escape; in that case one extra flag in front of the frame suffices, and otherwise at most that one frame is lost and the next one is received.", "quantifier": "all receiver states, all noise prefixes, all well-formed frames", "why_tests_cant": "line noise is arbitrary", "anchors": ["Diminuto/src/diminuto_framer.c: diminuto_framer_machine"]}
{"id": "C06", "title": "Flow control transparency", "statement": "Inserting XON and XOFF octets at any positions of any token stream does not change what the receiver receives; it only sets the transmit throttle, which equals the last flow-control octet seen.", "quantifier": "all token streams, all insertion positions", "why_tests_cant": "arbitrary interleavings of flow control with data", "anchors": ["Diminuto/src/diminuto_framer.c: diminuto_framer_machine"]}
{"id": "C07", "title": "Frame loss accounting", "statement": "If a receiver gets frames in order from a sender with k consecutive frames lost between two received ones (k < 65535), the count of missing frames reported after the second is exactly k, across sequence number roll over; and a repeated frame is reported as duplicated.", "quantifier": "all sequence numbers, all k below the modulus", "why_tests_cant": "roll over points are rarely exercised", "anchors": ["Diminuto/inc/com/diag/diminuto/diminuto_framer.h: diminuto_framer_getmissing, diminuto_framer_getduplicated, diminuto_framer_didrollover, diminuto_framer_didnearend, diminuto_framer_didfarend"]}
{"id": "C08", "title": "Kermit CRC is the CRC", "statement": "The table driven Kermit CRC-16 of any octet string from any initial value equals the bit-serial CRC with the reflected polynomial 0x8408, and computing it in pieces equals computing it over the concatenation.", "quantifier": "all octet strings, all 16-bit initial values, all ways to split the string", "why_tests_cant": "strings are unbounded", "anchors": ["Diminuto/src/diminuto_kermit.c: diminuto_kermit_16"]}
{"id": "C09", "title": "Kermit CRC detects errors", "statement": "Two octet strings of equal length whose difference is confined to a window of at most 16 bits always have different Kermit CRCs.", "quantifier": "all octet strings, all positions, all error patterns of length at most 16 bits", "why_tests_cant": "all strings times all error patterns", "anchors": ["Diminuto/src/diminuto_kermit.c: diminuto_kermit_16"]}
{"id": "C10", "title": "Printable CRC encoding", "statement": "The three character encoding of a CRC uses only printable characters in the documented ranges, is accepted by the decoder and decodes to the same CRC; every triple the decoder accepts decodes to a CRC whose encoding is that triple.", "quantifier": "all 16-bit CRC values and all character triples", "why_tests_cant": "the decoder must reject every malformed triple", "anchors": ["Diminuto/src/diminuto_kermit.c: diminuto_kermit_crc2chars, diminuto_kermit_chars2crc", "Diminuto/inc/com/diag/diminuto/diminuto_kermit.h"]}
{"id": "C11", "title": "Fletcher checksum", "statement": "The Fletcher-16 of any octet string equals the pair (sum, sum of prefix sums) modulo 255 continued from the initial pair, computing it in pieces equals computing it over the concatenation, and each half of the result is less than 255.", "quantifier": "all octet strings, all splits, all starting pairs", "why_tests_cant": "strings are unbounded", "anchors": ["Diminuto/src/diminuto_fletcher.c: diminuto_fletcher_16"]}
{"id": "C12", "title": "Hamming SECDED", "statement": "For every 4-bit value and every pattern of at most one flipped bit in its 8-bit symbol the decoder returns the original value; for every pattern of exactly two flipped bits it reports an error and never returns a value.", "quantifier": "all values and all error patterns of weight at most two", "why_tests_cant": "tests sample codewords; here every case is settled by the kernel", "anchors": ["Diminuto/src/diminuto_hamming.c", "Diminuto/src/diminuto_hamming.h"]}
{"id": "C13", "title": "Ring buffer discipline", "statement": "Under any sequence of producer and consumer requests with capacity at most 2^30 and requests at most the capacity, the slots granted to the producer are never slots still holding unconsumed data, the consumer is granted slots in exactly the order they were produced, refused requests change nothing, and used plus free always equals the capacity.", "quantifier": "all capacities up to 2^30, all finite histories of produce and consume requests of any sizes up to the capacity", "why_tests_cant": "histories are unbounded and wrap around occurs at any alignment", "anchors": ["Diminuto/src/diminuto_ring.c", "Diminuto/inc/com/diag/diminuto/diminuto_ring.h"]}
{"id": "C14", "title": "List ring integrity", "statement": "Every sequence of list operations on distinct initialised nodes (insert, remove, cut, splice, replace, push, pop, enqueue, dequeue) leaves every node on exactly one circular doubly linked list: next and previous links are mutually inverse and all nodes of one list name the same root node, which is on that list.", "quantifier": "all finite sets of nodes and all operation histories satisfying the documented preconditions", "why_tests_cant": "pointer structures and histories are unbounded", "anchors": ["Diminuto/src/diminuto_list.c", "Diminuto/inc/com/diag/diminuto/diminuto_list.h"]}
{"id": "C15", "title": "List is a deque", "statement": "Observed through the root, a list behaves as a sequence: push and pop act on the front, enqueue at the back, dequeue from the front, insert places a node right after the given node, remove takes the node out, all other nodes keep their order, and removing from an empty list yields nothing. The questions whether a node is a root, is a member, is a sibling or is alone are answered as the sequences say.", "quantifier": "all list contents and all operation histories", "why_tests_cant": "unbounded histories", "anchors": ["Diminuto/inc/com/diag/diminuto/diminuto_list.h: diminuto_list_push, diminuto_list_pop, diminuto_list_enqueue, diminuto_list_dequeue, diminuto_list_head, diminuto_list_tail", "Diminuto/src/diminuto_list.c"]}
{"id": "C16", "title": "Tree balance", "statement": "Every sequence of insertions and removals leaves the tree a valid red-black tree (root black, no red node with a red child, equal black height on all paths), so its depth never exceeds twice the base-two logarithm of one more than its size, and the built in audit reports no error.", "quantifier": "all comparators that are total orders, all operation histories", "why_tests_cant": "histories and shapes are unbounded", "anchors": ["Diminuto/src/diminuto_tree.c", "Diminuto/inc/com/diag/diminuto/diminuto_tree.h"]}
{"id": "C17", "title": "Tree and store are an ordered map", "statement": "After any history of insert, insert-or-replace, find and remove, finding a key yields exactly the entry most recently stored under an equal key and not removed since, duplicates are refused (or replaced when asked), and stepping from first with next (or from last with prev) visits exactly the stored entries once each in ascending (descending) key order.", "quantifier": "all comparators that are total orders, all histories and keys", "why_tests_cant": "histories and key sets are unbounded", "anchors": ["Diminuto/src/diminuto_tree.c", "Diminuto/inc/com/diag/diminuto/diminuto_tree.h", "Diminuto/inc/com/diag/diminuto/diminuto_store.h"]}
{"id": "C18", "title": "Throttle conformance bound", "statement": "If a client emits only when the throttle says zero delay is required and commits each emission, then over any window of time the number of events emitted in the window is at most the peak (or sustained) rate times the window length plus the permitted burst implied by the limit.", "quantifier": "all increments and limits, all request times (monotonic), all event counts, all windows", "why_tests_cant": "needs all traffic histories and all windows", "anchors": ["Diminuto/src/diminuto_throttle.c", "Diminuto/src/diminuto_shaper.c"]}
{"id": "C19", "title": "Throttle delay is exact", "statement": "The delay returned by a request is the least delay after which the same request would be admitted immediately; it is zero exactly when the request conforms, and it never exceeds the backlog.", "quantifier": "all throttle states and times without 64 bit overflow", "why_tests_cant": "state and time spaces are unbounded", "anchors": ["Diminuto/src/diminuto_throttle.c: diminuto_throttle_request", "Diminuto/src/diminuto_shaper.c: diminuto_shaper_request"]}
{"id": "C20", "title": "Reader-writer exclusion", "statement": "At every moment of every execution, with any number of threads, timeouts and priorities, either no thread holds the lock for writing and any number hold it for reading, or exactly one thread holds it for writing and none for reading; and a begin that reports failure leaves its caller holding nothing.", "quantifier": "all numbers of threads, all schedules, all timeout and spurious wakeup points, all priorities", "why_tests_cant": "schedules are unbounded and races are rare", "anchors": ["Diminuto/src/diminuto_readerwriter.c"]}
{"id": "C21", "title": "Reader-writer hand over", "statement": "Whenever the lock is released with threads waiting, and none is cancelled, the front waiter is activated at once: no state is reachable in which the lock is free, threads are queued, and nothing will wake them.", "quantifier": "all schedules, all queue contents", "why_tests_cant": "lost wakeups depend on rare interleavings", "anchors": ["Diminuto/src/diminuto_readerwriter.c: resume, suspend, schedule, diminuto_reader_end, diminuto_writer_end"]}
{"id": "C22", "title": "Reader-writer ordering", "statement": "Normal priority waiters are activated in the order they began waiting: a later normal priority waiter is never activated before an earlier one that neither timed out nor failed; readers adjacent in the queue are activated together.", "quantifier": "all schedules without priority requests", "why_tests_cant": "orderings over all schedules", "anchors": ["Diminuto/src/diminuto_readerwriter.c: enqueue, resume, suspend"]}
{"id": "C23", "title": "Escape output bounds", "statement": "Collapsing or expanding escape sequences writes at most the given number of octets to the destination, always terminates it with NUL when there is room for anything, and reports exactly the number of octets used including the NUL.", "quantifier": "all input strings, all destination sizes", "why_tests_cant": "unbounded strings and every truncation boundary", "anchors": ["Diminuto/src/diminuto_escape.c: diminuto_escape_collapse, diminuto_escape_expand"]}
{"id": "C24", "title": "Escape round trip", "statement": "Expanding any octet buffer and collapsing the result gives back the buffer, when the destinations are large enough, no NUL octet is followed by an octal digit and no special character is a letter or digit with an escape meaning; the unrestricted claim is false.", "quantifier": "all octet buffers and special sets satisfying the restriction", "why_tests_cant": "unbounded strings", "anchors": ["Diminuto/src/diminuto_escape.c"]}
{"id": "C25", "title": "Debouncing", "statement": "The debounced value changes only after as many consecutive equal samples as the debouncer remembers, a glitch shorter than that never changes it, a level held that long is always adopted, and rising and falling edges are reported exactly at changes, alternately.", "quantifier": "all sample sequences", "why_tests_cant": "unbounded sample histories", "anchors": ["Diminuto/src/diminuto_cue.c", "Diminuto/inc/com/diag/diminuto/diminuto_cue.h"]}
{"id": "C26", "title": "Fibonacci back off", "statement": "Starting from reset, successive values are the Fibonacci numbers until the limit would be reached, then the value stays constant; values never decrease and never exceed the limit.", "quantifier": "all limits and all numbers of steps", "why_tests_cant": "unbounded steps, all 32-bit limits", "anchors": ["Diminuto/inc/com/diag/diminuto/diminuto_fibonacci.h"]}
{"id": "C27", "title": "Tick conversions", "statement": "Converting ticks to units of a positive frequency that divides the tick frequency truncates towards zero with an error below one unit, converting a whole number of units to ticks and back is the identity for such a frequency (and ticks to units and back for a multiple of the tick frequency), splitting ticks into whole and fractional seconds loses nothing, and rounding ticks down or up to a multiple of a period gives the nearest multiple towards or away from zero.", "quantifier": "all 64 bit tick counts for which the arithmetic does not overflow, all unit frequencies", "why_tests_cant": "64 bit space", "anchors": ["Diminuto/inc/com/diag/diminuto/diminuto_frequency.h", "Diminuto/src/diminuto_frequency.c"]}
{"id": "C28", "title": "Time splitting", "statement": "Splitting a signed duration into days, hours, minutes, seconds and ticks yields fields in their documented ranges that sum back to the absolute duration, with the sign reported; splitting a clock value before the epoch yields a fraction in [0, frequency) and whole seconds rounded towards minus infinity; turning a clock value into a date and fraction and back is the identity (given that timegm undoes gmtime_r), including one second before the epoch.", "quantifier": "all 64-bit tick counts except the most negative", "why_tests_cant": "64 bit space, boundaries at every carry", "anchors": ["Diminuto/src/diminuto_time.c: diminuto_time_duration, diminuto_time_separate"]}
{"id": "C29", "title": "Logical clock", "statement": "In any interleaving of threads the k-th call of the logical clock after it was started or set to a value returns that value plus k modulo 2^64, and reports an overflow exactly from the first wrapped value on until it is reset; hence the values returned without an overflow are strictly increasing and unique.", "quantifier": "all interleavings of calls, short of 64 bit exhaustion", "why_tests_cant": "interleavings", "anchors": ["Diminuto/src/diminuto_time.c: diminuto_time_logical, diminuto_time_logical_reset, diminuto_time_logical_set"]}
{"id": "C30", "title": "Buffer pool capacity and exclusivity", "statement": "Every allocated buffer has room for the requested number of octets, no two live buffers ever overlap whatever mixture of allocations, frees and reallocations was performed, and a freed buffer is recycled only for requests of its own size class.", "quantifier": "all histories of malloc, calloc, realloc, strdup and free, all sizes up to the stated bound", "why_tests_cant": "unbounded histories", "anchors": ["Diminuto/src/diminuto_buffer.c", "Diminuto/src/diminuto_bufferpool.c", "Diminuto/src/diminuto_bufferpool.h"]}
{"id": "C31", "title": "Buffer realloc preserves contents", "statement": "Reallocating a buffer to any size preserves the octets common to the old and new sizes, and leaves the old buffer untouched when it returns failure.", "quantifier": "all sizes, all contents, both outcomes of the underlying allocation", "why_tests_cant": "allocation failure is hard to provoke", "anchors": ["Diminuto/src/diminuto_buffer.c: diminuto_buffer_realloc"]}
{"id": "C32", "title": "Object pool and well", "statement": "A well initialised with n objects hands out at most n objects at a time, all distinct and non overlapping, refuses the next one, and accepts each back; a pool recycles freed objects before allocating new ones and never hands out an object already in use.", "quantifier": "all histories of alloc and free", "why_tests_cant": "unbounded histories", "anchors": ["Diminuto/src/diminuto_well.c", "Diminuto/src/diminuto_pool.c"]}
{"id": "C33", "title": "Multiplexer registration", "statement": "After any history of register and unregister calls, the descriptors waited on for reading or accepting, and for writing, are exactly those registered and not unregistered since, and the search bounds cover them.", "quantifier": "all histories over all descriptors", "why_tests_cant": "unbounded histories", "anchors": ["Diminuto/src/diminuto_mux.c: diminuto_mux_register, diminuto_mux_unregister"]}
{"id": "C34", "title": "Multiplexer round robin", "statement": "Successive calls for the next ready descriptor return each ready registered descriptor exactly once before reporting none left, in cyclic order starting after the last returned one, so no descriptor starves, and never touch a descriptor bit outside the set.", "quantifier": "all sets of registered and ready descriptors", "why_tests_cant": "all subsets of descriptors", "anchors": ["Diminuto/src/diminuto_mux.c: diminuto_mux_set_ready", "Diminuto/src/diminuto_poll.c"]}
{"id": "C35", "title": "Endpoint parser: totality and exactness", "statement": "For every string the endpoint parser terminates, reports success or failure, and never reads or writes beyond its buffers. A string has at most one reading in the endpoint grammar (path, port, service, host, IPv4 address, bracketed IPv6 address, with an optional port or service). A string that has none is refused and nothing is set. A string that has one is accepted exactly if its host, service and path resolve, and then exactly the addresses, ports, path and type of that reading are set, the type following the caller's preference where both address families apply.", "quantifier": "all character strings of any length", "why_tests_cant": "unbounded strings", "anchors": ["Diminuto/src/diminuto_ipc_endpoint.c"]}
{"id": "C36", "title": "Lock file exclusion and crash safety", "statement": "Among any number of processes contending for a lock file at most one holds it at a time; and if processes crash at any instruction the lock file is, at every moment, either absent or a complete file containing the process identifier of a successful locker.", "quantifier": "all numbers of processes, all interleavings of system calls, all crash points", "why_tests_cant": "crash points and interleavings", "anchors": ["Diminuto/src/diminuto_lock.c"]}
{"id": "C37", "title": "Observation atomic commit", "statement": "A reader of the target path sees, at every moment, either the complete old contents or the complete new contents committed by some writer, never a partial file, even if the writer crashes at any instruction; discarding leaves the target unchanged.", "quantifier": "all writers, readers, interleavings and crash points", "why_tests_cant": "crash points", "anchors": ["Diminuto/src/diminuto_observation.c"]}
{"id": "C38", "title": "Pulse width modulation", "statement": "A running modulator with a duty d strictly between 0 and 255 alternates between a+1 ticks on and b+1 ticks off with a:b = d:255-d and a period of 19 to 257 ticks, so that in any whole period the on time differs from the fraction d/255 of the period by less than one tick; a duty of zero is never on and a full duty never off; and a change of duty made at any moment leaves the current on or off phase as it is and takes effect at its end.", "quantifier": "all duty cycles and all tick counts", "why_tests_cant": "unbounded tick histories", "anchors": ["Diminuto/src/diminuto_modulator.c"]}
{"id": "C39", "title": "PID controller bounds", "statement": "Whatever the samples, gains, and history, unless its arithmetic overflows (which moderate parameters exclude), the controller output lies within [minimum, maximum] and outside both dead bands, the accumulated integral error stays within plus or minus the windup limit, and the correction is the weighted sum of the proportional, integral and differential terms.", "quantifier": "all parameters and all sample histories", "why_tests_cant": "unbounded sample histories", "anchors": ["Diminuto/src/diminuto_controller.c"]}
{"id": "C40", "title": "IPv4/IPv6 mapping", "statement": "Mapping an IPv4 address to IPv6 and back is the identity, an IPv6 address converts to IPv4 exactly when it is v4-mapped, and host/network order conversion is an involution.", "quantifier": "all 32-bit IPv4 and 128-bit IPv6 addresses", "why_tests_cant": "2^128 addresses", "anchors": ["Diminuto/src/diminuto_ipc6.c", "Diminuto/inc/com/diag/diminuto/diminuto_ipc6.h"]}
{"id": "C41", "title": "Bounded read and write", "statement": "A read or write with a minimum and maximum transfers octets in order, never more than the maximum, returns exactly the number transferred, and returns less than the minimum only if end of file or an error occurred.", "quantifier": "all sequences of results of the underlying system calls", "why_tests_cant": "system call results are arbitrary", "anchors": ["Diminuto/src/diminuto_fd.c: diminuto_fd_read_generic, diminuto_fd_write_generic"]}
{"id": "C42", "title": "Signal accounting", "statement": "Every handled signal is counted in exactly one subsequent check, none is lost and none counted twice (below saturation), provided the signal is delivered to the checking thread.", "quantifier": "all interleavings of handler and check", "why_tests_cant": "asynchronous interleavings", "anchors": ["Diminuto/src/diminuto_alarm.c", "Diminuto/src/diminuto_hangup.c", "Diminuto/src/diminuto_reaper.c", "Diminuto/src/diminuto_interrupter.c", "Diminuto/src/diminuto_pipe.c", "Diminuto/src/diminuto_terminator.c"]}
{"id": "C43", "title": "Command line assembly", "statement": "Joining an argument vector with spaces never overruns the buffer, always terminates with NUL, returns the number of octets written, and equals the complete join whenever the buffer has the measured size.", "quantifier": "all argument vectors and buffer sizes", "why_tests_cant": "unbounded", "anchors": ["Diminuto/src/diminuto_command.c"]}
{"id": "C44", "title": "Bounded string copy", "statement": "Copying a string into a buffer of a given size never writes outside it, always terminates it, and copies the longest prefix that fits.", "quantifier": "all strings and sizes", "why_tests_cant": "unbounded", "anchors": ["Diminuto/src/diminuto_string.c"]}
{"id": "C45", "title": "Memory alignment arithmetic", "statement": "Rounding up to a power of two gives the least power of two not below the argument, the power-of-two test is exact, and aligning a size to a power-of-two alignment gives the least multiple not below the size, absent overflow.", "quantifier": "all 64 bit sizes and alignments", "why_tests_cant": "64 bit space", "anchors": ["Diminuto/src/diminuto_memory.c", "Diminuto/inc/com/diag/diminuto/diminuto_memory.h"]}
{"id": "C46", "title": "Bit set algebra", "statement": "Setting, clearing and reading bits of a byte array affects exactly the addressed bit, for all bit numbers and array sizes.", "quantifier": "all arrays and bit numbers", "why_tests_cant": "unbounded", "anchors": ["Diminuto/inc/com/diag/diminuto/diminuto_bits.h"]}
{"id": "C47", "title": "Trimming and printability of strings", "statement": "Trimming copies a string without its trailing blanks, except that one blank that is escaped by a backslash is kept, truncated to the destination and always terminated with NUL; a string is reported printable exactly if all its characters are.", "quantifier": "all strings, all source and destination sizes", "why_tests_cant": "unbounded strings and every truncation boundary", "anchors": ["Diminuto/src/diminuto_escape.c: diminuto_escape_trim, diminuto_escape_printable"]}
{"id": "C48", "title": "Throttle alarm hysteresis", "statement": "After any history of requests and commitments, conforming or not, the expected backlog is the level of a bucket that leaks one unit per tick and gains the increment per committed event, the throttle is empty or full exactly if the last committed events found the bucket empty or over its limit, and it is alarmed exactly if since events last found it empty some found it over its limit.", "quantifier": "all increments, limits, start times and histories of requests and commitments at non decreasing times", "why_tests_cant": "The flags depend on the whole history of levels; tests exercise a few arrival patterns.", "anchors": ["Diminuto/src/diminuto_throttle.c: diminuto_throttle_commitn, diminuto_throttle_request", "Diminuto/inc/com/diag/diminuto/diminuto_throttle.h: diminuto_throttle_isalarmed, diminuto_throttle_isempty, diminuto_throttle_isfull"]}
{"id": "C49", "title": "List audit", "statement": "Auditing a sound list finds nothing; and if an audit finds nothing, the node is on a circle of nodes whose next and previous links are mutually inverse and which all name the same root (except possibly the node opposite to it, which the code does not check).", "quantifier": "all memory contents, sound or damaged, all list lengths", "why_tests_cant": "damage is arbitrary", "anchors": ["Diminuto/src/diminuto_list.c: diminuto_list_audit"]}
{"id": "C50", "title": "Address classes, comparison and lists", "statement": "Every address classifier accepts exactly the addresses of the network it is named after, on machines of either byte order; the name given to an address is that of a network containing it; two addresses compare equal exactly when they are the same; and the array of addresses of a host name has exactly the addresses the resolver returned, fits the memory allocated for it, and ends with the unspecified address.", "quantifier": "all 32-bit IPv4 and 128-bit IPv6 addresses, both byte orders, all resolver results", "why_tests_cant": "The classifiers range over 2^128 addresses and the byte order cannot be changed on one machine; the two passes over the resolver list must agree for every list.", "anchors": ["Diminuto/inc/com/diag/diminuto/diminuto_ipc6.h", "Diminuto/inc/com/diag/diminuto/diminuto_ipc4.h", "Diminuto/src/diminuto_ipc6.c: redundant, diminuto_ipc6_addresses, diminuto_ipc6_address2type", "Diminuto/src/diminuto_ipc4.c"]}
{"id": "C51", "title": "Endpoint printing", "statement": "Printing an endpoint never writes beyond the given buffer, a smaller buffer holds the beginning of what a larger one would, and what is printed for an endpoint of one address (or one path) and at most one port number is parsed as that same endpoint whatever family the caller prefers.", "quantifier": "all endpoints, buffer lengths, resolvers and address printers that are inverse to them", "why_tests_cant": "unbounded addresses, ports and buffer lengths, and all answers of the name service", "anchors": ["Diminuto/src/diminuto_ipc_endpoint.c diminuto_ipc_endpoint2string", "Diminuto/src/diminuto_ipcl.c diminuto_ipcl_path2string"]}
{"id": "C52", "title": "Multiplexing with ppoll", "statement": "Whatever a program registers, unregisters and closes, each wait asks the system for exactly the descriptors registered at that moment, each once and for exactly the events of the purposes it is registered for, and returns what the system returns; after a wait that reported something, the calls for the next ready descriptor of a purpose return every descriptor registered and reported for it exactly once, in cyclic order resuming after the one returned last, and then -1. (A program that waits after closing a registered descriptor, without registering or unregistering in between, is excluded: for it this is false.)", "quantifier": "all histories of registrations, unregistrations, closes, waits and takes, all answers of ppoll(2)", "why_tests_cant": "The array of descriptors is rebuilt only when it is marked stale; which histories leave it stale cannot be enumerated, nor the answers of the system.", "anchors": ["Diminuto/src/diminuto_poll.c: diminuto_poll_wait_generic, poll_before, poll_after", "Diminuto/inc/com/diag/diminuto/diminuto_poll.h"]}
{"id": "C53", "title": "Scatter/gather records", "statement": "Whatever segments and records are allocated from a pool, linked, relinked, filled, sent and freed, the segments of a record are those put on it, in that order; counts and lengths are exact; a write or send presents the data of the segments one after the other, and octets received are found in the segments from the first on; every node is at each moment in the pool or in use and never both, and every allocated buffer belongs to exactly one segment, so that when everything has been freed the pool has all its nodes and no buffer is left.", "quantifier": "all pools, all sequences of operations that respect the documented preconditions, all data, all results of the allocator and of the system calls", "why_tests_cant": "Leaks, double frees and links into the wrong record depend on the history of operations and on when allocation fails, and histories are unbounded.", "anchors": ["Diminuto/src/diminuto_scattergather.c: diminuto_scattergather_segment_allocate, diminuto_scattergather_record_vectorize, diminuto_scattergather_record_write, diminuto_scattergather_record_read, diminuto_scattergather_record_send_generic", "Diminuto/inc/com/diag/diminuto/diminuto_scattergather.h"]}
{"id": "C54", "title": "Thread objects", "statement": "In every interleaving, as long as one caller at a time starts, joins or finalizes a thread object and fewer than 2^31 notifications wait: each successful start calls the function exactly once and with the given context; a join that succeeds returns the value the function ended with, after the thread terminated, and the thread is joined exactly once; a join sleeps only while the thread has yet to leave and is woken when it does, and never gets stuck; no notification is lost or counted twice, and signals are sent only to a living thread.", "quantifier": "all interleavings of the thread with any number of callers, all results of creating it, all ways it ends, all timeouts and spurious wakeups, all histories of restarts", "why_tests_cant": "Lost wakeups and joins of the wrong thread depend on the schedule; tests see a few schedules.", "anchors": ["Diminuto/src/diminuto_thread.c: proxy, proxy_cleanup, diminuto_thread_start, diminuto_thread_notify, diminuto_thread_notifications, diminuto_thread_exit, diminuto_thread_join_until, diminuto_thread_fini", "Diminuto/inc/com/diag/diminuto/diminuto_thread.h"]}
{"id": "C55", "title": "Timers that call a function", "statement": "In every interleaving of a timer's threads with its callers, as long as a timer is started only when it is known to be at rest (it was stopped, or its state was seen to be IDLE), by one caller at a time, and a periodic one does not expire while its function still runs: the function is called only with the context of the newest start, at most once per start if the timer is not periodic, and never while it still runs; once a stop has succeeded or the state has been seen to be IDLE, the function does not run and is not called until the next start; nothing is used after it was finalized. A stop sleeps only while there is something to wait for, that something can come, and its limit is twice the time and at least a second. A finalized timer does not expire.", "quantifier": "all interleavings of any number of callers and of the threads in which the timer expires, all times of expiration, all timeouts and spurious wakeups, all histories of restarts", "why_tests_cant": "Whether a call overlaps a stop, or a wakeup is lost, depends on when the timer expires relative to the caller; tests see a few schedules.", "anchors": ["Diminuto/src/diminuto_timer.c: proxy, diminuto_timer_state, diminuto_timer_init_base, diminuto_timer_fini, diminuto_timer_start, diminuto_timer_stop, diminuto_timer_setitimer", "Diminuto/src/diminuto_timer.h: diminuto_timer_window", "Diminuto/inc/com/diag/diminuto/diminuto_timer.h"]}
{"id": "C56", "title": "Walking a file tree visits every entry once, in order", "statement": "Walking the tree below a path calls the user's function once for each entry, in the order in which the directories list them, a directory before what it contains, with the path, the name, the depth and the status of the entry; names . and .. and entries that vanish meanwhile are passed over; the walk ends early just if the function says so or an error that may not be forgiven occurs, and returns what that was; no path is written outside of its buffer.", "quantifier": "every finite file tree, every function with every state, every answer of lstat and of opendir, and every length of paths and names", "why_tests_cant": "The trees, the points at which a call fails and the lengths at which a path just fits are unbounded.", "anchors": ["Diminuto/src/diminuto_fs.c: diminuto_fs_walk, diminuto_fs_walker", "Diminuto/inc/com/diag/diminuto/diminuto_fs.h"]}
{"id": "C57", "title": "mkdir -p makes every directory of a path", "statement": "Given a path, each of its directories (all of them, or all but the last) is asked to be made, outermost first, until one can neither be made nor exists already; success means that each of them is there; when nothing that is no directory is in the way it does succeed and changes nothing else; repeated, leading and trailing slashes make no difference; no octet outside of a buffer is accessed.", "quantifier": "every path, every state of the file system and every answer of mkdir(2)", "why_tests_cant": "The shapes of paths and the points of failure are unbounded.", "anchors": ["Diminuto/src/diminuto_fs.c: diminuto_fs_mkdir_p"]}
{"id": "C58", "title": "Canonical paths are the resolved directory and the file", "statement": "A path is canonicalized to the real path of what must exist of it, followed by the last component, which need not exist; the result is written only if it fits into the given size, and otherwise the buffer is unchanged; expansion gives the real path or as much as fits, always terminated; the letter for the type of a file is different for different types.", "quantifier": "every path, every answer of realpath(3), every size of the buffer, every mode", "why_tests_cant": "Boundaries of buffers and combinations of dots and slashes are too many to try.", "anchors": ["Diminuto/src/diminuto_fs.c: diminuto_fs_canonicalize, diminuto_fs_expand, diminuto_fs_mode2type"]}
{"id": "C59", "title": "The search of a path finds the first match", "statement": "Searching the directories of a colon-separated list for a file returns the first of the candidates that exists, empty components being skipped, and nothing if none exists; by the name of a variable, its value is searched.", "quantifier": "every list, every file name, every state of the file system", "why_tests_cant": "There are unboundedly many lists and states.", "anchors": ["Diminuto/src/diminuto_path.c: diminuto_path_scan, diminuto_path_find"]}
{"id": "C60", "title": "Numbers are read as they are written", "statement": "Converting a string yields the number that it denotes in decimal, octal or hexadecimal, with sign and leading space, or the nearest number of the type, and the rest of the string; a string that is entirely taken and not empty denotes that number; every number, written in any of the three bases, is read again.", "quantifier": "every string and every number of 64 bits", "why_tests_cant": "There are unboundedly many strings.", "anchors": ["Diminuto/src/diminuto_number.c: diminuto_number_unsigned, diminuto_number_signed"]}
{"id": "C61", "title": "The log mask selects priorities, and is set from the environment or a file", "statement": "A message is enabled just if the bit of its priority is set in the mask; the environment variable or the first line of the file sets the mask to the number that it denotes, or to all, and anything that denotes no number leaves it as it was.", "quantifier": "every mask, every priority, every value of the variable and every content of the file", "why_tests_cant": "There are unboundedly many values and contents.", "anchors": ["Diminuto/src/diminuto_log.c: diminuto_log_setmask, diminuto_log_importmask, diminuto_log_priority2mask", "Diminuto/inc/com/diag/diminuto/diminuto_log.h: diminuto_log_mask_isenabled, diminuto_log_priority_isenabled"]}
{"id": "C62", "title": "A log record is one line, and is written completely", "statement": "What is written for a message is its header and text as one line that ends with a newline and fits into the buffer, no octet outside of which is accessed; with whatever partial writes, all of it is written in order, and what could not be written is counted as lost.", "quantifier": "every header and message of every length, every sequence of answers of write(2)", "why_tests_cant": "Lengths and patterns of partial and failing writes are unbounded.", "anchors": ["Diminuto/src/diminuto_log.c: diminuto_log_vwrite"]}
{"id": "C63", "title": "Records of several threads do not mix, and go to the right place", "statement": "Whatever the schedule of the threads and the partial writes, the log consists of whole records one after the other, those of each thread in its order; a record goes where the strategy says, and once the automatic choice is the system log it stays so.", "quantifier": "every number of threads and records, every schedule, every pattern of writes; every history of the process", "why_tests_cant": "Schedules cannot be enumerated.", "anchors": ["Diminuto/src/diminuto_log.c: diminuto_log_vwrite, diminuto_log_vlog, diminuto_log_open_syslog"]}
{"id": "C64", "title": "Printing octets safely loses nothing and keeps the lines within the limit", "statement": "Printing octets emits for each of them, in order, one printable token and nothing else but line breaks; with a line limit no token is split, no line is longer than the limit and each line is as full as can be; the text reads back as the same octets if no NUL comes before an octal digit.", "quantifier": "every sequence of octets, every option, every line limit of at least four", "why_tests_cant": "The state of the printer depends on the whole history of octets; only samples of streams and limits can be tried.", "anchors": ["Diminuto/src/diminuto_phex.c: diminuto_phex_emit", "Diminuto/bin/phex.c: main"]}
{"id": "C65", "title": "A dump shows each octet once, at its address, and reads nothing else", "statement": "A dump of a block at an address is a table of lines that covers it: each octet is shown once in hexadecimal and once as a character, in the column of its address; lines begin at multiples of the line size if it is a power of two; nothing outside of the block is read.", "quantifier": "every block, address, line size and format for which the addresses of the lines do not wrap", "why_tests_cant": "Alignments, lengths and line sizes are unbounded.", "anchors": ["Diminuto/src/diminuto_dump.c: diminuto_dump_generic", "Diminuto/inc/com/diag/diminuto/diminuto_dump.h: diminuto_dump_general"]}
{"id": "C66", "title": "A meter tells what happened, and overflows are told", "statement": "After any history of measurements the meter's total is the sum of the events accepted, never wrapped; its interval, count, burst, peak and sustained rate are those of the accepted calls; a call out of order fails and changes nothing; the overflow of the total is reported, then and at each later call that adds events.", "quantifier": "every history of calls with any times and numbers of events", "why_tests_cant": "Histories are unbounded and overflow needs 2^64 events.", "anchors": ["Diminuto/src/diminuto_meter.c: diminuto_meter_reset, diminuto_meter_events, diminuto_meter_sustained"]}
{"id": "C67", "title": "Making a socket does everything asked for or nothing", "statement": "Making a provider, consumer or peer (IPv4, IPv6 or local) carries out the injector, the bind to exactly the address and port asked for, the device, and the listening or connecting, in that order; at the first failure it stops, closes the socket and returns a negative number; so no descriptor leaks, whatever fails.", "quantifier": "every address, port, path, device, backlog and injector, every behaviour of the system, every earlier history", "why_tests_cant": "Each system call can fail at each point; a test cannot make the kernel do so.", "anchors": ["Diminuto/src/diminuto_ipc4.c: diminuto_ipc4_stream_provider_base, diminuto_ipc4_stream_consumer_base, diminuto_ipc4_datagram_peer_base", "Diminuto/src/diminuto_ipc6.c: the same", "Diminuto/src/diminuto_ipcl.c: the same and the packet ones", "Diminuto/src/diminuto_ipc.c: diminuto_ipc_set_interface, diminuto_ipc_close"]}
{"id": "C68", "title": "A delay sleeps for its time however often it is interrupted", "statement": "What a delay returns is exactly what is missing from the time asleep. A delay that is not to be interrupted goes on with what remains after each signal, and returns 0 when it has slept as long as it should; an interruptible one returns at the first signal. Each time it asks the kernel for is valid.", "quantifier": "every number of ticks below 2^63, every number of interruptions, every honest answer of the kernel", "why_tests_cant": "Signals come at any moment and any number of times.", "anchors": ["Diminuto/src/diminuto_delay.c: diminuto_delay"]}
{"id": "C69", "title": "Just one daemon, or none and the failure is told", "statement": "Whatever fails, at most one process goes on as the daemon, and it is told 0; the caller exits with 0, or a service's caller gets 1, only if there is a daemon, its parent being gone. A command is told 0 only if there is a process that executes it or tried to. If nothing fails it works, however often the wait is interrupted.", "quantifier": "every answer of fork, waitpid, exec and getppid, every number of interruptions, every moment at which the first child is killed", "why_tests_cant": "fork(2) cannot be made to fail at each point, nor a signal to come between two calls.", "anchors": ["Diminuto/src/diminuto_daemon.c: diminuto_daemon, diminuto_service, diminuto_system, diminuto_daemon_fork, diminuto_daemon_refork, diminuto_daemon_verify"]}
{"id": "C70", "title": "A daemon inherits no descriptors", "statement": "After a daemon has been made standard input is the null device for reading, standard output and error are it for writing, and no other descriptor below 1024 is open, whichever were open before, the first three included. Whatever fails, no other descriptor below 1024 stays open. A command keeps just the first three.", "quantifier": "every table of descriptors, every limit, every failure of open and dup2", "why_tests_cant": "Any subset of the descriptors may be open, and any of the calls may fail.", "anchors": ["Diminuto/src/diminuto_daemon.c: diminuto_daemon_redirect, diminuto_daemon_sanitize", "Diminuto/src/diminuto_fd.c: diminuto_fd_count"]}
{"id": "C71", "title": "A serial port is set to what was asked for", "statement": "A terminal has the speed, data bits, parity, stop bits and flow controls asked for, is transparent, and nothing else is changed; arguments that cannot be are refused and nothing is changed. A raw terminal is transparent with eight bits and no parity.", "quantifier": "every settings of the terminal before, every argument, every failure of the system", "why_tests_cant": "There are 2^128 settings before, and the arguments are integers.", "anchors": ["Diminuto/src/diminuto_serial.c: diminuto_serial_set, diminuto_serial_raw"]}
{"id": "C72", "title": "A map contains the block, and is undone", "statement": "If mapping works the block asked for lies in the mapping, which begins at the page of its first octet; the descriptor is closed just once, whatever fails; a failure leaves nothing to unmap; unmapping unmaps just what was mapped, and once.", "quantifier": "every address, length and page size that do not wrap, every answer of the system", "why_tests_cant": "The addresses are arbitrary and the system calls may fail.", "anchors": ["Diminuto/src/diminuto_map.c: diminuto_map_map, diminuto_map_unmap, diminuto_map_minimum"]}
{"id": "C73", "title": "Lists of interfaces and addresses are complete and fit their block", "statement": "The list of interface names holds each name once, in order of first appearance, ends with a null pointer and lies in the block that was allocated for it. The list of addresses of an interface holds just its addresses of that family, in order and in host byte order, and ends with zero; that of a host likewise. A reader who stops at the end mark gets all the addresses, unless one of them is zero itself.", "quantifier": "every answer of the system with NUL terminated names shorter than 255 octets, both byte orders", "why_tests_cant": "The block is measured in one pass and filled in another, over arbitrary lists with duplicates.", "anchors": ["Diminuto/src/diminuto_ipc.c: diminuto_ipc_interfaces", "Diminuto/src/diminuto_ipc4.c: diminuto_ipc4_interface, diminuto_ipc4_addresses, diminuto_ipc4_address", "Diminuto/src/diminuto_ipc6.c: diminuto_ipc6_interface"]}
{"id": "C74", "title": "Ports and socket options are what was asked for", "statement": "A port is that of the service, or the number in decimal, hexadecimal or octal, with or without a colon before it, and zero for anything else; a port printed into a buffer with room for it is read back. A linger time is rounded up to seconds and limited, buffer sizes are limited, and setting a status flag changes no other.", "quantifier": "every string, number of ticks, size and set of flags", "why_tests_cant": "The arguments range over 64 bits and over all strings.", "anchors": ["Diminuto/src/diminuto_ipc.c: diminuto_ipc_port, diminuto_ipc_port2string, diminuto_ipc_set_socket, diminuto_ipc_set_status, diminuto_ipc_set_send, diminuto_ipc_set_receive, diminuto_ipc_set_linger"]}
{"id": "C75", "title": "The Internet checksum is that of RFC 1071", "statement": "The checksum stored in memory is that of RFC 1071 on either kind of machine; data with their checksum in them have the checksum zero on any machine; data with the checksum zero in which just one octet is changed have not.", "quantifier": "all data of up to 131074 octets, both byte orders", "why_tests_cant": "The data are arbitrary, as is the octet that is changed.", "anchors": ["Diminuto/src/diminuto_ping4.c: diminuto_inet_checksum"]}
{"id": "C76", "title": "A reply to a ping gives back what was sent", "statement": "An echo request goes to the address given and has a correct checksum. A reply with the same data gives back the identifier, the sequence number and the time since, and its sender. Nothing but a complete echo reply with a correct checksum gives a positive result, and nothing outside the buffer is read as long as the length of the header in the packet is no more than that of the packet.", "quantifier": "every time, address, identifier, sequence number and packet, both byte orders", "why_tests_cant": "The packets come from the network and are arbitrary.", "anchors": ["Diminuto/src/diminuto_ping4.c: diminuto_ping4_datagram_send, diminuto_ping4_datagram_receive", "Diminuto/src/diminuto_ping6.c: diminuto_ping6_datagram_send, diminuto_ping6_datagram_receive"]}
{"id": "C77", "title": "A line is found, opened, set and read as asked", "statement": "A line searched for by its name is the first one of that name in the first device that has one, and every device that was opened on the way is closed. A parameter that is a path and an offset, or a name, with or without a sign, gives that path and offset and tells whether the line is active low; no other parameter is accepted except for one more sign of the number. Opening asks the kernel for exactly the lines given, with the flags given and all of them debounced if a time is given, closes the device in every case, and asks for nothing if the lines cannot be asked for. What is put is what is got, and lines outside the mask do not change. An edge is reported only for a whole event.", "quantifier": "every list of devices and lines, parameter, set of lines, mask and state, whatever the kernel answers", "why_tests_cant": "Names, devices and what the kernel answers are arbitrary, and a test has just the devices it has.", "anchors": ["Diminuto/src/diminuto_line.c: diminuto_line_find, diminuto_line_parse, diminuto_line_open_generic, diminuto_line_close, diminuto_line_get_generic, diminuto_line_put_generic, diminuto_line_get, diminuto_line_put, diminuto_line_read"]}
{"id": "C78", "title": "A pin is configured with the right text in the right file", "statement": "Exporting, unexporting, and setting the polarity, direction, initial value and edge of a pin report success if and only if the right text was written to the file of that pin and that file was closed; what is opened is closed exactly once; there are no more tries, and no more delays, than allowed. Setting up gives a stream if and only if the pin was exported, its direction was set and its value was opened, in that order. What is put is what was asked for and what is got is what is there.", "quantifier": "every pin, root, choice and number of tries, whatever stat, open, write, flush and close answer at every try", "why_tests_cant": "The answers of the file system at each of any number of tries are arbitrary.", "anchors": ["Diminuto/src/diminuto_pin.c: diminuto_pin_configure_generic, diminuto_pin_export, diminuto_pin_unexport, diminuto_pin_active, diminuto_pin_direction, diminuto_pin_edge, diminuto_pin_initialize, diminuto_pin_open, diminuto_pin_close, diminuto_pin_get, diminuto_pin_put, diminuto_pin_input, diminuto_pin_output, diminuto_pin_unused"]}
{"id": "C79", "title": "Transactions on an I2C bus are whole", "statement": "Whatever threads call the functions that get, set and send on one bus, what happens on the bus is one whole transaction after another, each being what its call asks for as far as it works, and only the last may be unfinished. Each thread's calls happen in its order. A call returns -1 if any of it fails and otherwise the number of octets moved by the last part. What is got is what is in the registers of the device asked for, whatever the other threads did before. The mutex is always released.", "quantifier": "every number of threads, list of calls of each, schedule and answers of the system", "why_tests_cant": "Tests run a few schedules; interleavings and failures are arbitrary.", "anchors": ["Diminuto/src/diminuto_i2c.c: diminuto_i2c_open, diminuto_i2c_use, diminuto_i2c_read, diminuto_i2c_write, diminuto_i2c_get, diminuto_i2c_set, diminuto_i2c_send, diminuto_i2c_get_set, diminuto_i2c_set_get"]}
{"id": "C80", "title": "Operations of the memory mapped driver are atomic", "statement": "Calls of ioctl on the driver by any threads have the results and the effect they have one after the other in the order in which they return: reading gives the octets there, writing puts those given, setting and clearing change just the bits asked for, all of the width given and nowhere else; a call that fails or is interrupted changes nothing. So no update of a bit is lost.", "quantifier": "every number of threads, list of calls, schedule, memory, offset, width and data", "why_tests_cant": "Read-modify-write races depend on the schedule, and the memory is hardware.", "anchors": ["Diminuto/drv/diminuto_mmdriver.c: mmdriver_unlocked_ioctl, mmdriver_operation_read, mmdriver_operation_write, mmdriver_operation_set, mmdriver_operation_clear", "Diminuto/drv/diminuto_kernel_datum.c: diminuto_kernel_get, diminuto_kernel_put", "Diminuto/inc/com/diag/diminuto/diminuto_datum.h", "Diminuto/inc/com/diag/diminuto/diminuto_mmdriver.h"]}
{"id": "C81", "title": "The driver maps all of its block and gives it back", "statement": "If a block of memory is mapped in the kernel then all of it is, from the base that is given, aligned to a page if asked for; otherwise nothing is mapped. Unmapping undoes mapping. A driver that was loaded has its mapping, device and proc entry, and nothing is left once it is unloaded or if loading it fails.", "quantifier": "every start, length, page size, state of the kernel and result of each step of loading", "why_tests_cant": "Addresses are arbitrary and failures of the kernel cannot be provoked.", "anchors": ["Diminuto/drv/diminuto_kernel_map.c: diminuto_kernel_map, diminuto_kernel_unmap", "Diminuto/drv/diminuto_mmdriver.c: mmdriver_init, mmdriver_exit"]}
{"id": "C82", "title": "Variables of the boot loader are printed only if they are undamaged", "statement": "The checksum computed over the environment is the usual 32 bit cyclic redundancy check. An environment in which up to four adjacent octets are damaged, or the stored checksum is, is refused with its own exit status and nothing is printed. Otherwise all variables are printed in their order if no name is given; if one is, then the value of the first variable whose keyword begins the name is printed, which is the variable of that name unless another before it is a part of the name; and the status tells if there is none.", "quantifier": "every environment, damage, byte order and name", "why_tests_cant": "The damage and the content are arbitrary; a table of 256 entries and a loop unrolled eight times agree with the definition of the checksum only if they do so for every input.", "anchors": ["Diminuto/bin/getubenv.c: crc32, main"]}
{"id": "C83", "title": "A device is wiped only if every word of it is", "statement": "If the wiping utility ends without errors then every word of the device is that of the pattern made from the seed, all of the device was written and read back, and no write and no read failed. On a device that works, of any capacity in sectors, it does so, although writes may be short and the last block may not fit. It ends whatever the device does. Sizes are rounded up to the least multiple.", "quantifier": "every capacity, block and sector size, seed, content, and every sequence of short writes, refusals, failures and short reads", "why_tests_cant": "How a device splits, refuses or fails requests cannot be enumerated, and neither can capacities that are no multiple of the block.", "anchors": ["Diminuto/bin/wipe.c: main"]}
{"id": "C84", "title": "The traffic shaper passes what it reads, no faster than asked", "statement": "Between any two blocks the shaping utility writes, the octets of the first and of those between them are no more than the peak rate allows in the time passed and the jitter tolerance, and no more than the sustained rate allows with the burst tolerance. What it writes is what it read, in order, and all of it if no write failed; its exit code tells how the input ended. The totals, the largest block and the checksum it reports are those of all that was read. A sustained rate above the peak rate is refused.", "quantifier": "every sequence of reads, interruptions, results of writes, times of the clock, rates, burst sizes, tolerances and block sizes", "why_tests_cant": "The rate bound is about every pair of blocks in every schedule of the clock; tests see one schedule.", "anchors": ["Diminuto/bin/shaper.c: main"]}
{"id": "C85", "title": "The buffered shaper passes what it reads in each of its modes", "statement": "In block and in character mode all of the input is written, for every buffer size; in line mode too if the input has no NUL and the buffer holds at least two octets. What is written is always a prefix of the input, and all of it if the exit code is that of success.", "quantifier": "every input, buffer size, mode and pattern of failing writes", "why_tests_cant": "Lines longer than the buffer, NUL octets and failures can be anywhere in inputs of any length.", "anchors": ["Diminuto/bin/shaperbuffered.c: input, output, main"]}
{"id": "C86", "title": "Code sections leave locks and signal masks as they found them", "statement": "However critical, serialized and uninterruptible sections are nested, and whether the code in them runs to its end, breaks out or is cancelled, the thread ends with the mutexes it had, and with the signal mask it had whatever was done to the mask in uninterruptible sections; spin locks are released if the code ends or breaks out. All that is done in a section is done with its lock held, or with its signals blocked, as well as all those of the sections around it. A section that is tried and cannot be had is passed over with no effect.", "quantifier": "all code made of work, mask changes, breaks, returns, cancellations and sections of the three kinds, begun or tried, nested to any depth, from every mask and set of locks", "why_tests_cant": "Nesting and the ways of leaving a section combine without bound; cancellation can come anywhere.", "anchors": ["Diminuto/inc/com/diag/diminuto/diminuto_criticalsection.h: DIMINUTO_CRITICAL_SECTION_BEGIN, TRY, END", "Diminuto/inc/com/diag/diminuto/diminuto_serializedsection.h", "Diminuto/inc/com/diag/diminuto/diminuto_uninterruptiblesection.h", "Diminuto/src/diminuto_criticalsection.c", "Diminuto/src/diminuto_uninterruptiblesection.c"]}
{"id": "C87", "title": "What is done to a shared value in sections is atomic, and nobody waits for ever", "statement": "When threads apply functions to a shared value, each in a section, the value is what it would be had the functions been applied one after the other, each thread's in its order, and each thread gets the results of that; at most one thread is in the section; only a try fails; and a thread that is alive can always be brought to do its next job, with a mutex even after other threads were cancelled anywhere. Numbers given by a counter kept so are given once each, with none left out.", "quantifier": "every number of threads, jobs, functions, and every schedule of steps and cancellations", "why_tests_cant": "Races depend on the schedule; a test runs a few of infinitely many.", "anchors": ["Diminuto/src/diminuto_atomicapply.c: diminuto_atomic_apply", "Diminuto/src/diminuto_unittest.c: diminuto_unittest_test, diminuto_unittest_error", "Diminuto/inc/com/diag/diminuto/diminuto_criticalsection.h", "Diminuto/inc/com/diag/diminuto/diminuto_serializedsection.h"]}
{"id": "C88", "title": "Words and numbers that mean yes or no mean that", "statement": "The words closed, enabled, high, true, yes and on mean yes, and open, disabled, low, false, no and off mean no, in any mixture of small letters and capitals. A decimal, octal or hexadecimal number below 2^32 means yes unless it is zero; what starts with a digit and is not a number, what starts with neither letter nor digit, the empty string and no string at all yield the caller's default.", "quantifier": "every string, every default", "why_tests_cant": "The strings are without number; so are the ways to write a number.", "anchors": ["Diminuto/src/diminuto_testify.c: diminuto_testify", "Diminuto/inc/com/diag/diminuto/diminuto_testify.h: DIMINUTO_TESTIFY"]}
{"id": "C89", "title": "Limits of types, swapping, and the verdict of a unit test", "statement": "The minimum and maximum computed for an integer type are its least and greatest values, for every width in octets, signed or not. Swapping exchanges two objects and touches no other. A program of tests exits with status zero just if nothing in it went wrong, however many things do, and with the number of errors below 256; each test reports success just if nothing went wrong in it.", "quantifier": "every integer type, every pair of objects and values, every nesting and sequence of tests and failures", "why_tests_cant": "A test suite cannot test its own verdict for every number of errors, nor a macro for every type.", "anchors": ["Diminuto/inc/com/diag/diminuto/diminuto_minmaxof.h", "Diminuto/inc/com/diag/diminuto/diminuto_swap.h: DIMINUTO_SWAP", "Diminuto/inc/com/diag/diminuto/diminuto_unittest.h: TEST, STATUS, EXPECT, EXIT, FATAL"]}
{"id": "C90", "title": "Modules stay while they are referred to", "statement": "However the loads and unloads of modules are mixed, if none is unloaded more often than loaded then each load of a file with a module returns its handle, each unload succeeds, and a module is there just while it has been loaded more often than unloaded. Unloading one that is not there fails and returns the handle. Unloading by force removes a module however often it was loaded and leaves the others.", "quantifier": "every history of loads and unloads of any modules", "why_tests_cant": "Histories are unbounded; reference counts matter only in long ones.", "anchors": ["Diminuto/src/diminuto_module.c: diminuto_module_load, diminuto_module_unload, diminuto_module_handle, diminuto_module_symbol"]}
{"id": "C91", "title": "Abandoned, oversize and empty frames, and end of file", "statement": "A sender that gives up a frame at any octet before its last, sends the abort sequence, and then sends another frame, has that other frame delivered, and nothing of the abandoned one is counted as received. A frame larger than the receiver's buffer is passed over without changing the buffer or the sequence numbers, and the receiver is ready for what follows. A frame without data does not make the reader return, but its sequence number is taken. The end of file makes the reader return EOF at once from any state. After a completed frame, an error or the end of file nothing more is stored until the application resets the receiver, so a datagram is not overwritten before the application is done with it.", "quantifier": "all receiver states any history can produce, all frames, all points at which a frame can be abandoned, all octets that follow", "why_tests_cant": "the abort can come at any octet, also in the middle of an escape, and the octets that arrive after completion are arbitrary", "anchors": ["Diminuto/src/diminuto_framer.c: diminuto_framer_abort, diminuto_framer_machine, diminuto_framer_reader", "Diminuto/inc/com/diag/diminuto/diminuto_framer.h: diminuto_framer_isterminal, diminuto_framer_iserror"]}
{"id": "C92", "title": "Converting numbers between notations", "statement": "Run as dec, hex, oct, ntohs, htons, ntohl or htonl, by any path, the converter answers each argument, or each line of standard input, that spells a number with one line in the notation or octet order that its name says, in order, and exits with zero. The first argument that is not a number stops it with status three after the answers to those before it, and no input is status two. What hex, oct or dec print is read again as the same numbers, so a pipe through them changes nothing, and converting to network order and back gives each number within the width.", "quantifier": "all names and paths, all lists of arguments, all files of lines, all numbers of 64 bits", "why_tests_cant": "There are 2^64 numbers in three notations, with white space, signs and any text after them, in lists of any length; tests can only try a few.", "anchors": ["bin/dec.c:main", "src/diminuto_number.c:diminuto_number_unsigned"]}
{"id": "C93", "title": "Calculating masks, broadcast and host addresses", "statement": "Given an address alone the IP calculator prints the mask of the class of its network; given an address and a mask, the address with each bit that the mask leaves to hosts set; given also a host, the address whose bits are those of the address where the mask has ones and those of the host where it has zeros. It prints no address, and exits with one, if there are no or more than three arguments or any argument is not an address.", "quantifier": "all addresses, masks (contiguous or not) and hosts, all lists of arguments", "why_tests_cant": "There are 2^96 combinations of address, mask and host, including masks that are not contiguous.", "anchors": ["bin/ipcalc.c:main"]}
{"id": "C94", "title": "Reading and writing memory by options", "statement": "The memory utility carries out its options in order: each write, set, clear and bit operation changes exactly the bits of the word of one, two, four or eight octets that it says, under the mask in force, and no other octet; a read prints the word; a write does not read, a read does not write, and the others read once and then write once; a condition right after a read stops or goes on according to what was read; a bad number or a failed mapping stops with status one. With a region, no access is outside of it as long as the places fit.", "quantifier": "all contents of memory, all lists of options that make sense, all regions, places, widths, masks and values", "why_tests_cant": "Sequences of options of any length over any contents of memory cannot be enumerated, and stray accesses to device registers do not show in the output.", "anchors": ["bin/memtool.c:OPERATE", "bin/memtool.c:operate", "bin/memtool.c:main"]}
{"id": "C95", "title": "Collapsing escape sequences in place, and the collapse utility", "statement": "A buffer may be given as both the source and the destination of collapsing its escape sequences: the result is what two separate buffers would give, and the rest of the buffer is as it was. The collapse utility writes the meanings of its arguments one after another, skipping empty ones, and exits with zero, so that what was expanded is written as it was; a write that takes too little stops it with status one.", "quantifier": "all texts, all buffer sizes, all lists of arguments, all points at which a write falls short", "why_tests_cant": "That the write position never overtakes the read position must hold for every sequence of escapes of every length.", "anchors": ["src/diminuto_escape.c:diminuto_escape_collapse", "bin/collapse.c:main"]}
{"id": "C96", "title": "The dump utility shows every octet", "statement": "The dump utility prints a line for each sixteen octets of what it reads, with their address from the beginning of that file, so that whoever reads the digits back gets exactly what was dumped; files are dumped one after another, each as if in one piece, and with -t what was read is copied to the standard output unchanged. A file that cannot be opened or read to its end stops it with status two or three after what was read has been dumped.", "quantifier": "all contents of files and of the standard input, all lists of arguments, all ways of showing an address in sixteen columns", "why_tests_cant": "That nothing is lost or shown twice where one block ends and the next begins must hold for every length.", "anchors": ["bin/dump.c:dump", "bin/dump.c:main", "src/diminuto_dump.c:diminuto_dump_generic"]}
{"id": "C97", "title": "Threads that use the environment at the same time", "statement": "Threads may get, put, set and unset environment variables through this library at the same time: a function that changes the environment is never at work together with another, the calls have the effects and results they would have one after another in the order in which they took effect, each takes effect once between its call and its return or fails with no effect, and a thread that waits always has a thread before it that can go on. The string that get returns is not protected.", "quantifier": "all numbers of threads, all schedules, all wakeups, all behaviours of the C library's functions used one at a time", "why_tests_cant": "It must hold for every interleaving of the calls; a test sees a few.", "anchors": ["src/diminuto_environment.c:diminuto_environment_get", "src/diminuto_environment.c:diminuto_environment_put", "src/diminuto_environment.c:diminuto_environment_set", "src/diminuto_environment.c:diminuto_environment_unset"]}
{"id": "C98", "title": "Renaming without replacing, and exchanging two files", "statement": "The rename utility with two names moves the first file to the second name only if there is no file of that name, and with -x exchanges two files that are both there; otherwise, or if the kernel refuses, nothing changes, and the exit code (0, 1, or 2 for wrong arguments) says which. However often and by however many users it is run, no file is changed, lost or replaced. A file named -x cannot be renamed.", "quantifier": "all directories, all arguments, all refusals by the kernel, all sequences of runs", "why_tests_cant": "No file may be lost in any history of runs by any users; a test runs a few.", "anchors": ["bin/renametool.c:main", "src/diminuto_renameat2.h:renameat2"]}
{"id": "C99", "title": "Reading and writing memory through the driver by options", "statement": "With any driver that does each call at once or not at all, the memory driver utility carries out its options in order: each read prints the word at the place in decimal, each write, set and clear changes each bit of the word as asked (with the mask for set) and no other octet, the tests stop or go on by the word just read, and the first option that fails (misspelled number, device or place that cannot be used, interrupted call) ends it with exit status 1 and leaves memory as it is. Delays are in nanoseconds although microseconds are documented.", "quantifier": "all lists of options that make sense, all memories, all honest drivers, all contents of uninitialized fields", "why_tests_cant": "It must hold for all sequences of options, all contents of memory and of uninitialized variables.", "anchors": ["bin/mmdrivertool.c:main", "bin/mmdrivertool.c:control", "bin/mmdrivertool.c:number"]}
{"id": "C100", "title": "Pin utility", "statement": "gpiotool PIN exits with zero if and only if the pin could be exported, made an input, opened and read as a zero or a one, and then prints just that; gpiotool PIN VALUE does the same with an output, to which a one is written unless the value is zero. A pin that was prepared is unexported and closed again. Bad arguments change nothing. (False: that a number too large for a pin is refused, that a pin is never left exported, that an empty argument is refused.)", "quantifier": "all command lines, all pins, all numerals, all answers of the kernel to each call", "why_tests_cant": "needs the hardware, and each call to the kernel failing", "anchors": ["Diminuto/bin/gpiotool.c: main", "Diminuto/src/diminuto_pin.c: diminuto_pin_setup, diminuto_pin_unused"]}
{"id": "C101", "title": "Utilities that sleep and tell the time", "statement": "elapsedsleep sleeps for just the delay that it is given, in the unit that it is given, and yields if that is zero. elapsedtime and epochtime print the number of whole units since their clock began. zulu and juliet print the date the C library gives, with all nanoseconds, in the form of ISO 8601. Arguments that are no numbers, negative delays and units that are not positive are refused. (False: that juliet prints the offset of any time zone, that a clock that cannot be read is reported, that any delay and any unit are right.)", "quantifier": "all delays, units, times, dates, time zones and command lines", "why_tests_cant": "all times and all numerals; the failing clock and other time zones are not there when the tests run", "anchors": ["Diminuto/bin/elapsedsleep.c: main", "Diminuto/bin/elapsedtime.c: main", "Diminuto/bin/epochtime.c: main", "Diminuto/bin/zulu.c: main", "Diminuto/bin/juliet.c: main"]}
{"id": "C102", "title": "Lines become frames, and frames become lines", "statement": "The framer utility sends each line of its input as one frame, in order and with its newline, cut to the size of the buffer that was asked for, until a frame cannot be sent, after which it sends none. It never stores outside of its buffer. The utility at the other end, if its buffer is no smaller, writes just these lines, in order. So if all lines fit and can be sent and written, then what comes out of the other end is what went in, up to the last newline. (False: that all of the input is sent: what is after the last newline is not; that a failure to write loses just what could not be written.)", "quantifier": "all inputs, with any octets and lines of any length; all sizes of the buffers; all choices of the frame that cannot be sent", "why_tests_cant": "inputs and lines are of unbounded length; a wrong boundary writes one octet beyond the buffer, which a test does not see", "anchors": ["Diminuto/bin/framertool.c: main"]}
{"id": "C103", "title": "Whether the kernel is a realtime kernel", "statement": "The question whether the kernel supports realtime preemption is answered with yes if and only if the file can be opened, begins with a decimal number above zero, and can be closed; with no if there is no such file or it begins with anything else; with an error if it cannot be opened, read or closed, or if there is no path. The file is always closed again. (False: that a blank file is always answered with no, that any number is.)", "quantifier": "all contents of the file, all answers of fopen, fscanf and fclose, all values errno had before", "why_tests_cant": "the file is the kernel's; what is left in errno from before is decided by what the program did earlier", "anchors": ["Diminuto/src/diminuto_realtime.c: diminuto_realtime_is_supported_fp", "Diminuto/src/diminuto_realtime.c: diminuto_realtime_is_supported_path", "Diminuto/src/diminuto_realtime.c: diminuto_realtime_is_supported"]}
