{"id": "C01", "title": "Queue index allocator never double-allocates", "statement": "For any history of alloc() and free() calls on a driver resource pool of n indices in which only currently held indices are freed, every index handed out is in range, is the lowest one not currently held, and is not held by anybody else; alloc() raises exactly when all n indices are held; an index that was freed can be allocated again.", "quantifier": "every pool size n and every finite history of alloc/free calls", "why_tests_cant": "tests exercise a handful of alloc/free sequences; uniqueness has to hold after every history", "anchors": ["fpga/common/tb/mqnic.py:Resource", "fpga/common/tb/mqnic.py:Resource.alloc", "fpga/common/tb/mqnic.py:Resource.free"]}
{"id": "C02", "title": "Register block enumeration terminates and returns exactly the chain", "statement": "Enumerating register blocks terminates on every register file contents. It either returns the complete next-pointer chain from the given offset (each block once, in chain order, with the type, version and address found in the registers), or raises, and it raises exactly when the chain runs into a misaligned or an already visited offset.", "quantifier": "every register file (32-bit word at every address) and every start offset", "why_tests_cant": "a corrupt or cyclic next pointer may occur at any position of a chain of any length", "anchors": ["fpga/common/tb/mqnic.py:RegBlockList.enumerate_reg_blocks", "modules/mqnic/mqnic_reg_block.c:mqnic_enumerate_reg_block_list"]}
{"id": "C03", "title": "Register block lookup returns the index-th match", "statement": "find(type, version, index) returns the index-th block (counting from 0, in enumeration order) whose type is equal and whose version is equal or unspecified, and None exactly when there are not more than index such blocks.", "quantifier": "every block list, type, optional version, and index", "why_tests_cant": "the space of lists and queries is unbounded", "anchors": ["fpga/common/tb/mqnic.py:RegBlockList.find", "modules/mqnic/mqnic_reg_block.c:mqnic_find_reg_block"]}
{"id": "C04", "title": "Host ring pointers survive 16-bit register wrap", "statement": "If the driver's full-width copy of a hardware pointer lags the true pointer by less than 65536, then after reading the 16-bit pointer register the driver's copy equals the true full-width pointer.", "quantifier": "every pair of true pointer and lagging driver copy, at any magnitude", "why_tests_cant": "wrap-around occurs only after tens of thousands of operations and at every multiple of 65536", "anchors": ["fpga/common/tb/mqnic.py:Txq.read_cons_ptr", "fpga/common/tb/mqnic.py:Rxq.read_cons_ptr", "fpga/common/tb/mqnic.py:Eq.read_prod_ptr", "fpga/common/tb/mqnic.py:Cq.read_prod_ptr"]}
{"id": "C05", "title": "TX ring never overfills and never overwrites a pending slot", "statement": "In every interleaving of transmit calls, hardware completions (each naming a descriptor that was posted and not yet completed) and ring cleaning, the number of posted but not reclaimed TX descriptors never exceeds half the ring, the ring-slot-free assertion in transmit never fires, and no slot with a pending packet is overwritten.", "quantifier": "every ring size, every finite schedule of transmits, out-of-order completions and CQ processing", "why_tests_cant": "depends on all interleavings of sender and completion handler, including pointer wrap-around", "anchors": ["fpga/common/tb/mqnic.py:Interface.start_xmit", "fpga/common/tb/mqnic.py:Txq.process_tx_cq", "fpga/common/tb/mqnic.py:Txq.free_desc"]}
{"id": "C06", "title": "TX descriptors cover exactly the packet bytes", "statement": "The descriptor block written by transmit describes a list of (pointer,length) segments that is contiguous, starts at the packet buffer's payload and has total length equal to the packet length, and the checksum command field encodes the requested start and offset; hence the hardware gathers exactly the packet bytes.", "quantifier": "every packet content and length below the MTU, every descriptor block size, every buffer address", "why_tests_cant": "segmentation has boundary cases at 42 and 4096 bytes for each block size", "anchors": ["fpga/common/tb/mqnic.py:Interface.start_xmit"]}
{"id": "C07", "title": "RX descriptors tile the receive buffer", "statement": "The receive descriptor block prepared for a slot lists segments that are contiguous, disjoint, start at the buffer and whose total length is the receive buffer size.", "quantifier": "every buffer size, descriptor block size and buffer address", "why_tests_cant": "segmentation boundary cases for all sizes", "anchors": ["fpga/common/tb/mqnic.py:Rxq.prepare_desc"]}
{"id": "C08", "title": "Packet buffer pool conservation", "statement": "In every history of buffer allocations and frees that frees only held buffers, no buffer is both free and held, no buffer is held twice, and buffers are only created when none is free.", "quantifier": "every finite history of alloc_pkt/free_pkt", "why_tests_cant": "all histories", "anchors": ["fpga/common/tb/mqnic.py:Driver.alloc_pkt", "fpga/common/tb/mqnic.py:Driver.free_pkt"]}
{"id": "C09", "title": "Phase-tag completion ring delivers every record once, in order", "statement": "When a producer writes records with the phase tag of its pointer and never runs more than the ring size ahead of the consumer, then in every interleaving of producer writes and consumer polls the consumer returns exactly the sequence of records produced, each once and in order, never a stale record, and stops polling exactly when it has caught up.", "quantifier": "every ring size (power of two), every interleaving of writes and polls, every record contents", "why_tests_cant": "stale-entry confusion appears only for particular interleavings after the ring wraps", "anchors": ["fpga/common/tb/mqnic.py:Eq.process_eq", "fpga/common/tb/mqnic.py:Txq.process_tx_cq", "fpga/common/tb/mqnic.py:Rxq.process_rx_cq", "fpga/common/rtl/cpl_queue_manager.v", "modules/mqnic/mqnic_eq.c", "modules/mqnic/mqnic_tx.c"]}
{"id": "C10", "title": "RX ring refill keeps the ring full and never overwrites a posted buffer", "statement": "In every interleaving of hardware completions (in any order over the posted buffers) and CQ processing, every packet the hardware placed into a posted buffer is delivered to the receive queue exactly once, unmodified, in completion order; no buffer still owned by the hardware is reused; and after CQ processing fewer than 8 slots of the ring are unposted.", "quantifier": "every ring size, every schedule of completions and polls, every packet content", "why_tests_cant": "The interleavings of hardware completions with polling, the ring sizes and the pointer wraps are unbounded; tests run a few packets through one size.", "anchors": ["fpga/common/tb/mqnic.py:Rxq.refill_buffers", "fpga/common/tb/mqnic.py:Rxq.process_rx_cq", "fpga/common/tb/mqnic.py:Rxq.prepare_desc"]}
{"id": "C11", "title": "Queue manager pipeline is linearizable", "statement": "For every schedule of register writes, register reads, dequeue requests, commits and response backpressure, every response and every register value returned by the pipelined queue manager is the one an atomic (one operation at a time, no pipeline) queue manager gives for the operations taken in the order they leave the pipeline.", "quantifier": "every pipeline depth >= 2, number of queues, op table size, input schedule and backpressure", "why_tests_cant": "read-modify-write hazards depend on exact cycle alignment of operations on the same queue", "anchors": ["fpga/common/rtl/queue_manager.v"]}
{"id": "C12", "title": "Queue manager hands out each descriptor exactly once, in order", "statement": "The successful dequeue responses for an enabled queue name consecutive descriptor indices starting at the consumer pointer, never at or beyond the producer pointer; the response address is base + (index mod ring size) * descriptor block size; an empty response is given exactly when no published descriptor remains beyond those handed out; disabled queue gives error.", "quantifier": "every history of doorbells, dequeues and commits on any set of queues", "why_tests_cant": "duplicates or skips would depend on outstanding uncommitted operations and wrap-around", "anchors": ["fpga/common/rtl/queue_manager.v"]}
{"id": "C13", "title": "Queue manager commits consumer pointers in order", "statement": "The consumer pointer of a queue advances by exactly one per committed dequeue operation, in dequeue order, regardless of the order in which commits arrive; it never passes an operation that has not been committed, so host software never sees an uncommitted descriptor as consumed.", "quantifier": "every order of commits over any number of outstanding operations", "why_tests_cant": "permutations of outstanding commits are unbounded", "anchors": ["fpga/common/rtl/queue_manager.v"]}
{"id": "C14", "title": "Queue configuration is immutable while enabled", "statement": "While a queue is enabled, register writes change nothing but the producer pointer (resp. consumer pointer/arm for completion queues) and the enable flag; a register read returns the fields last written and the current pointers.", "quantifier": "every register access history", "why_tests_cant": "every write data/strobe/register combination in every state", "anchors": ["fpga/common/rtl/queue_manager.v", "fpga/common/rtl/cpl_queue_manager.v"]}
{"id": "C15", "title": "Doorbell output is exact", "statement": "A doorbell is emitted for queue q exactly once per producer pointer update accepted while the queue is enabled, and never otherwise.", "quantifier": "every register access history", "why_tests_cant": "all histories", "anchors": ["fpga/common/rtl/queue_manager.v"]}
{"id": "C16", "title": "Completion queue never overruns", "statement": "If software only moves the consumer pointer forward up to the producer pointer, then a successful enqueue response always names a slot that software has already consumed, consecutive responses name consecutive slots with the correct phase bit, and a full response is given exactly when ring-size records are outstanding or unconsumed.", "quantifier": "every history of enqueues, commits, consumer pointer updates, any ring size", "why_tests_cant": "pointer arithmetic modulo 65536 and outstanding operations", "anchors": ["fpga/common/rtl/cpl_queue_manager.v"]}
{"id": "C17", "title": "Armed completion queue raises exactly one event", "statement": "An armed, enabled completion queue with an unconsumed record emits an event and disarms; at most one event is emitted per arm command (unless continuous), and if software arms after consuming, no record is left behind without an event.", "quantifier": "every interleaving of commits, arm writes and consumer pointer updates", "why_tests_cant": "arm/commit races", "anchors": ["fpga/common/rtl/cpl_queue_manager.v"]}
{"id": "C18", "title": "Completion events are not lost under backpressure", "statement": "Every event raised by making a completion visible is presented at the event output, in order, until accepted, whatever the backpressure, as long as no register write raises an event itself; with an event sink that is always ready no event is lost at all. Without the proviso the claim is false: a register write that arms a non-empty queue overwrites an event still waiting at the output.", "quantifier": "every schedule of register writes, enqueues, commits and event-output backpressure, any pipeline depth", "why_tests_cant": "needs a specific overlap of arm write and backpressured event", "anchors": ["fpga/common/rtl/cpl_queue_manager.v"]}
{"id": "C19", "title": "Round-robin TX scheduler holds each queue at most once", "statement": "In every history of doorbells, completions, register accesses, scheduler control and transmit requests, each queue is in the schedule (waiting, or having its turn) at most once, exactly when its scheduled flag is set, so the FIFO cannot overflow; the count and the active output tell how many there are; a transmit request begins only for a queue that is enabled, active and scheduled, and stays on the port until it is taken; the enable bit is the one of the last register write and a register read returns the flags. This needs register writes of the enable bit to select its byte: an unselected write puts the queue into the schedule without its flag, once per write.", "quantifier": "every history of scheduler inputs from power-on, resets included, every number of queues, operations and pipeline stages", "why_tests_cant": "all histories; the flags are read and written by operations in flight in a pipeline", "anchors": ["fpga/common/rtl/tx_scheduler_rr.v"]}
{"id": "C20", "title": "Round-robin TX scheduler never loses a doorbell", "statement": "A doorbell the doorbell FIFO has room for is owed until a transmit request begun after it is answered empty. While it is owed it waits in the FIFO, is in the pipeline, or is noted in the queue's active flag or in an outstanding operation of the queue; whenever nothing is under way for the queue, the queue is active and, if its enable bits permit, it is in the schedule (from which C21 says it is served). This holds for every interleaving in which the engine answers outstanding requests in any order, except that it does not answer a request empty after a later one of the same queue. Outside this the code loses doorbells: answers that overtake each other, a full doorbell FIFO, and, with scheduler control, a queue enabled only by its global bit.", "quantifier": "every interleaving of doorbells, requests, completions, register accesses, scheduler control and resets; every table size, queue count and pipeline length", "why_tests_cant": "a lost wake-up needs a particular interleaving of doorbell and completion", "anchors": ["fpga/common/rtl/tx_scheduler_rr.v:386-870"]}
{"id": "C21", "title": "Round-robin service is fair", "statement": "Between two consecutive transmit requests for one queue, every other queue that is scheduled at the first and stays enabled and active is requested at least once, and no queue is requested twice if the first queue stays enabled and active.", "quantifier": "every number of queues and every history", "why_tests_cant": "unbounded histories", "anchors": ["fpga/common/rtl/tx_scheduler_rr.v"]}
{"id": "C22", "title": "Arbiter grant is one-hot, granted to a requester, and fair", "statement": "At most one grant is active; a new grant goes only to an active requester; grant_encoded names it; with round-robin each continuously requesting port is granted within as many grants as there are ports; with blocking the grant is held until release/acknowledge.", "quantifier": "every port count, parameter setting and request/acknowledge schedule", "why_tests_cant": "unbounded schedules and port counts", "anchors": ["fpga/lib/axis/rtl/arbiter.v", "fpga/lib/axis/rtl/priority_encoder.v"]}
{"id": "C23", "title": "Priority encoder selects the extreme set bit", "statement": "output_valid is set exactly when some input bit is set, output_encoded is the index of the least (LSB_HIGH_PRIORITY) or greatest set bit, and output_unencoded is its one-hot code, for every width including non powers of two.", "quantifier": "every width and input vector", "why_tests_cant": "widths are a parameter; tests fix a few", "anchors": ["fpga/lib/axis/rtl/priority_encoder.v"]}
{"id": "C24", "title": "Stream register preserves the stream", "statement": "Under every valid/ready schedule the AXI stream register delivers exactly the accepted beats, each once, in order, holds at most two beats, and keeps its output stable while it is not accepted; no accepted beat is lost in the skid buffer.", "quantifier": "every input schedule, data and backpressure pattern; REG_TYPE 0, 1, 2", "why_tests_cant": "unbounded schedules", "anchors": ["fpga/lib/axis/rtl/axis_register.v"]}
{"id": "C25", "title": "Stream FIFO delivers exactly the accepted beats in order", "statement": "In normal mode, from power-on or any reset and under every schedule of both sides, what was delivered followed by a bounded number of beats still inside is what was accepted, so nothing is lost, duplicated or reordered; a beat is refused only while the memory's worth of beats is inside; with a ready sink everything accepted is delivered and an offered beat is accepted within a bound; an offered beat stays offered until taken; the fill level shown is the number of beats inside up to the read pipeline.", "quantifier": "every depth, pipeline length, output FIFO option, input schedule and backpressure pattern", "why_tests_cant": "pointer wrap-around and pipeline bubbles depend on the schedule", "anchors": ["fpga/lib/axis/rtl/axis_fifo.v"]}
{"id": "C26", "title": "Frame FIFO drops whole frames only", "statement": "In frame mode with dropping, the accepted beats split into frames each of which has exactly the fate its status pulse reports; the output is the in-order concatenation of the good frames, unchanged; a frame is reported bad only if it fits and the user signal of its last beat says so, and overflowing only if it is longer than the memory or, with DROP_WHEN_FULL, the memory was full; no two status outputs are high together.", "quantifier": "every depth, frame sequence, schedule and option combination", "why_tests_cant": "drop decisions depend on the fill level at each cycle", "anchors": ["fpga/lib/axis/rtl/axis_fifo.v"]}
{"id": "C27", "title": "Stream multiplexer never interleaves frames", "statement": "The arbitrated stream multiplexer output is a concatenation of whole input frames; each input's frames appear in order, complete and unmodified, and are marked with their source.", "quantifier": "every port count, frame mix and backpressure schedule", "why_tests_cant": "unbounded schedules", "anchors": ["fpga/lib/axis/rtl/axis_arb_mux.v", "fpga/lib/axis/rtl/arbiter.v"]}
{"id": "C28", "title": "COBS encode/decode round trip", "statement": "Frames sent into the COBS encoder come out of it in order, stuffed as COBS defines: no zero byte except the delimiter that APPEND_ZERO adds as the last byte of a frame, at most one byte per started 254 longer (and the delimiter). The decoder given those bytes, with tlast or (with APPEND_ZERO) without it, with zero bytes in between, returns the original frames; a frame that ended with tuser comes out cut short and ended with tuser. After arbitrary bytes, everything behind the next zero byte is decoded correctly. All that was accepted comes out once the sink is ready, and neither module stops accepting for good. One thing does not hold: a legal encoding with a redundant empty last group behind 254 bytes is not ended by the decoder but merged with the next frame.", "quantifier": "every sequence of frames of any length and content, good or bad, every timing of source and sink on both modules, both settings of APPEND_ZERO", "why_tests_cant": "block boundaries at 254 bytes, runs of zeros, any length, and the interplay of two FIFOs with back pressure; tests run a few lengths and patterns", "anchors": ["fpga/lib/axis/rtl/axis_cobs_encode.v", "fpga/lib/axis/rtl/axis_cobs_decode.v"]}
{"id": "C29", "title": "One RSS hash report per received frame", "statement": "The receive hash unit reports exactly once per frame, in frame order and at most three cycles after the frame's end, whatever gaps there are between beats, from power-up and after a reset in any state. For an IPv4 frame the type word names IPv4 and TCP or UDP (only without IP options) and the hash is the Toeplitz hash, under the configured key, of source address, destination address and, for TCP and UDP, the ports; for other frames type and hash are zero. Two defects limit it: IPv6 frames longer than the beat counter's period have their payload parsed as headers, and a frame that ends inside the IPv4 header has type 0 but a stale hash.", "quantifier": "every bus width, key, frame content, frame length, gap pattern and number of frames, excepting IPv6 frames longer than the beat counter's period", "why_tests_cant": "frame contents, lengths and sequences are unbounded and state carries over between frames", "anchors": ["fpga/common/rtl/rx_hash.v"]}
{"id": "C30", "title": "Receive checksum is the ones-complement sum, one per frame", "statement": "For every frame the receive checksum unit emits exactly one value, a fixed number of cycles after the frame's last beat, equal to the 16-bit ones-complement sum of the big-endian byte pairs from the start offset to the end of the frame, whatever gaps there are between beats. Two defects limit it: a start offset of exactly 2, 4, 8, ... beats does not fit the beat counter, and a reset in the middle of a frame leaves the partial sum to be added to the next frame.", "quantifier": "every frame length and content, every gap pattern, every bus width from 4 to 65536 bytes, every start offset that is not 2^n beats with n >= 1", "why_tests_cant": "carry folding has rare corner cases; frame length, gaps and the parameters are unbounded", "anchors": ["fpga/common/rtl/rx_checksum.v"]}
{"id": "C31", "title": "Parallel LFSR/CRC equals the bit-serial definition", "statement": "The parallel LFSR (CRC / scrambler) step for a data width w computes the same next state and output as w steps of the bit-serial LFSR, so the CRC of a message does not depend on the word width used.", "quantifier": "every polynomial, LFSR width, data width, state and data", "why_tests_cant": "all polynomial/width combinations", "anchors": ["fpga/lib/eth/rtl/lfsr.v"]}
{"id": "C32", "title": "Scrambler and descrambler are inverse and self-synchronizing", "statement": "Descrambling a scrambled word stream from the same state yields the original words. On a link of transmitter and receiver interfaces, whatever the initial states, bit 58 and later of the received stream equal the sent ones except where an odd number of the line bits at distances 0, 39 and 58 were flipped; without line errors the blocks come out unchanged after the fixed latency. Headers are never affected by errors in other bits.", "quantifier": "every data width, pipeline depth, bit order, initial state, block stream and error pattern", "why_tests_cant": "infinite streams, all error patterns", "anchors": ["fpga/lib/eth/rtl/lfsr.v", "fpga/lib/eth/rtl/eth_phy_10g_tx_if.v", "fpga/lib/eth/rtl/eth_phy_10g_rx_if.v"]}
{"id": "C33", "title": "64b/66b block coding round trip", "statement": "Any 64-bit XGMII word of a 10GBASE-R block format is coded by the block encoder into the block the standard gives for it (header, type field, control codes, data in their places). Decoded by the block decoder it comes out two cycles later as it went in with no bad block flagged, whatever goes before or after and whenever the receiver is reset; except that an ordered set in lane 0 followed by a start in lane 4 comes out with lanes 1 to 3 marked as control characters (a defect of the decoder). The transmit bad block flag is raised for exactly the words of no legal format, and those come out with an error character; so does any received block, however damaged, that is flagged bad. While all words are legal, a sequence error is flagged exactly for a start inside a frame and an end outside one.", "quantifier": "every XGMII data/control word at every place of every stream; every 66-bit block", "why_tests_cant": "2^72 inputs, streams of any length", "anchors": ["fpga/lib/eth/rtl/xgmii_baser_enc_64.v", "fpga/lib/eth/rtl/xgmii_baser_dec_64.v"]}
{"id": "C34", "title": "Ethernet/ARP/IPv4/UDP frame builders and parsers round trip", "statement": "A frame object whose fields are in range builds to the octets the protocol's wire layout prescribes; parsing those octets, followed by any padding for ARP, IPv4 and UDP, returns the same header fields and payload; rebuilding a parsed frame returns the received octets without padding; a computed FCS leaves the CRC-32 residue. (A MAC address above 48 bits is cut silently.)", "quantifier": "every field value in range, every payload and padding", "why_tests_cant": "payload lengths and contents unbounded", "anchors": ["fpga/lib/eth/tb/eth_ep.py", "fpga/lib/eth/tb/arp_ep.py", "fpga/lib/eth/tb/ip_ep.py", "fpga/lib/eth/tb/udp_ep.py"]}
{"id": "C35", "title": "IPv4 header and UDP checksums follow RFC 1071", "statement": "The computed header checksum makes the ones-complement sum of the 20 header octets 0xFFFF, and the computed UDP checksum that of pseudo header, header and zero-padded payload; on received octets the verifiers accept only such packets, and every such packet whose checksum field is not 0xFFFF. (A field of 0xFFFF where the computation gives 0 is rejected, and a UDP checksum computed as 0 is sent as 0 instead of 0xFFFF.)", "quantifier": "every header field value, payload and received octet string", "why_tests_cant": "carry folding corner cases", "anchors": ["fpga/lib/eth/tb/ip_ep.py", "fpga/lib/eth/tb/udp_ep.py"]}
{"id": "C36", "title": "Byte enables describe exactly the requested byte range", "statement": "A request for n>=1 bytes at byte address a gets the dword address, dword count and byte enables that select exactly the bytes [a,a+n); a write built from a byte string carries each byte at its address; the byte count derived from the enables is the distance between first and last enabled byte, n for such requests; the reported lower address is a mod 128 when a is a multiple of 4 (and, a defect, never otherwise).", "quantifier": "every address and length; for the byte count every pair of byte enables", "why_tests_cant": "all alignments, lengths and enable patterns", "anchors": ["fpga/lib/pcie/tb/pcie.py:TLP.set_be", "fpga/lib/pcie/tb/pcie.py:TLP.set_be_data", "fpga/lib/pcie/tb/pcie.py:TLP.get_be_byte_count", "fpga/lib/pcie/tb/pcie.py:TLP.get_lower_address"]}
{"id": "C37", "title": "TLP pack/unpack round trip", "statement": "Unpacking the dwords packed from a valid completion yields an equal TLP; unpacking a packed configuration request yields it with register number 0; unpacking a packed memory or IO request does not recover the address (it raises without data and takes the first data dword for the address otherwise), so the round trip fails there.", "quantifier": "every completion, configuration, memory and IO TLP with fields in range", "why_tests_cant": "all field values", "anchors": ["fpga/lib/pcie/tb/pcie.py:TLP.pack", "fpga/lib/pcie/tb/pcie.py:TLP.unpack"]}
{"id": "C38", "title": "Memory accesses are split into legal TLPs that tile the range", "statement": "A memory write by a function or the root complex and a memory read by the root complex of n bytes at address a is split into TLPs that cover exactly [a,a+n) without overlap, in order, none crossing a 4 KiB boundary and none exceeding the max payload / read request size, with the address format matching the address; a memory read by a function does so only if one request suffices and fails otherwise.", "quantifier": "every address, length, content and max size setting", "why_tests_cant": "boundary alignment cases", "anchors": ["fpga/lib/pcie/tb/pcie.py:Function.mem_write", "fpga/lib/pcie/tb/pcie.py:Function.mem_read", "fpga/lib/pcie/tb/pcie.py:RootComplex.mem_write", "fpga/lib/pcie/tb/pcie.py:RootComplex.mem_read"]}
{"id": "C39", "title": "Read completions are split legally and reassemble to the data", "statement": "The completions a memory endpoint returns for a read request carry byte counts and lower addresses such that concatenating their payloads in order gives exactly the requested bytes, each completion is within max payload size and ends on a read completion boundary except the last.", "quantifier": "every address, length, byte enables, MPS and RCB", "why_tests_cant": "boundary alignment cases", "anchors": ["fpga/lib/pcie/tb/pcie.py:MemoryEndpoint.handle_mem_read_tlp", "fpga/lib/pcie/tb/pcie.py:RootComplex.handle_mem_read_tlp"]}
{"id": "C40", "title": "Configuration capability list is well linked", "statement": "After any sequence of capability registrations the list is sorted by offset, holds every registered identity exactly once, and with two or more entries every next pointer names the following capability and the last is zero; a capability registered at an explicit offset is found there, at a free place it leaves the others untouched, and capabilities of two or more registers placed automatically lie back to back without overlap. Known defects, each refuted: automatic placement among explicitly placed capabilities can overlap one in its last register, and a lone capability has no next pointer, so reading its header raises.", "quantifier": "every sequence of registrations, every identity, length and offset", "why_tests_cant": "all sequences of registrations", "anchors": ["fpga/lib/pcie/tb/pcie.py:PcieCapList.register"]}
{"id": "C41", "title": "Host memory regions allocated by the root complex are disjoint", "statement": "Regions returned by successive allocations of even sizes have the requested sizes, never overlap, are aligned to their size rounded up to a power of two, and an address resolves to the region containing it; with odd sizes regions can overlap (a defect).", "quantifier": "every sequence of even allocation sizes", "why_tests_cant": "all sequences of sizes", "anchors": ["fpga/lib/pcie/tb/pcie.py:RootComplex.alloc_region", "fpga/lib/pcie/tb/pcie.py:RootComplex.find_region"]}
{"id": "C42", "title": "Image build concurrency limits hold", "statement": "At every moment at most `parallel` build processes run and at most `synth_parallel` are in synthesis; each permit taken is given back exactly once, the synthesis permit at the end of synthesis or of the build; when all builds have finished all permits are back; and unless an exception ended a build, the builds can always all be completed. (A build ended by an exception - process creation failed, or a log line does not decode - keeps its permits, and later builds may never start.)", "quantifier": "every number of builds and every interleaving of build progress events", "why_tests_cant": "all interleavings of build threads/log events", "anchors": ["fpga/build_images.py"]}
{"id": "C43", "title": "Interrupt lines call their handler for every rising edge", "statement": "With edge-triggered interrupt lines no rising edge is lost however long the handlers take, calls of one handler never overlap, and the handler of a line is called exactly once per rising edge provided no other line of the signal changes while it is high (always the case with a single line). In general the handler is called once for every change of the signal that leaves its line high, so a held line is retriggered by its neighbours; an interrupt created from a single edge signal (from_edge) never calls its handler at all.", "quantifier": "every sequence of line values, every interleaving with handlers of any duration", "why_tests_cant": "the duplicate and the lost call depend on which lines overlap in time; unbounded waveforms and schedules", "anchors": ["fpga/common/tb/mqnic.py:Driver._run_edge_interrupts", "fpga/common/tb/mqnic.py:Interrupt._run", "fpga/common/tb/mqnic.py:Interrupt._run_edge"]}
{"id": "C44", "title": "Closing queues and interfaces", "statement": "Closing a queue switches it off in hardware and hands its index back once; freeing a ring whose outstanding slots all hold buffers returns each of them to the pool once and empties the ring; closing an interface without queues stops both directions of its port. Closing an interface that has a queue does not work: it raises, never switches a queue off or hands anything back, however often it is retried; freeing a ring with an out-of-order completion raises as well.", "quantifier": "every set of queues and every ring state", "why_tests_cant": "depends on ring contents and on the number of queues; unbounded", "anchors": ["fpga/common/tb/mqnic.py:Interface.close", "fpga/common/tb/mqnic.py:Txq.close", "fpga/common/tb/mqnic.py:Txq.free_buf", "fpga/common/tb/mqnic.py:Rxq.free_buf"]}
{"id": "C45", "title": "Statistics collection and counters conserve increments", "statement": "Since reset, and for every schedule of increments, stalls, reads and update requests: (1) the collector never hands over more of a channel than came in, and everything that came in up to an update request is handed over within 2 COUNT + 1 ready cycles (without requests, within UPDATE_PERIOD + 2 COUNT + 1), provided what is outstanding fits the output width; otherwise it is right modulo that width. A report is stable until taken, and without requests a channel is reported at most once per period. (2) Every read of the counter memory is answered once, in order, PIPELINE cycles later, with the word addressed of the sum modulo the counter width of exactly the increments of that counter accepted more than PIPELINE cycles before. An increment is accepted within PIPELINE + 2 cycles when no read is offered. Defects: sums overflow at the widths used for DMA statistics; the rate fails when UPDATE_PERIOD - 1 is a power of two; reads can starve increments for ever; a counter wider than the bus is read torn.", "quantifier": "every parameter choice, increment, read, stall and reset schedule of any length", "why_tests_cant": "unbounded histories; hazards between reads, increments and the memory pipeline depend on exact timing", "anchors": ["fpga/common/rtl/stats_counter.v:35-320", "fpga/common/rtl/stats_collect.v:33-235"]}
{"id": "C46", "title": "PTP clock time is normalised, monotonic and equals the sum of the configured increments", "statement": "After a reset or a set of the time, the 96-bit time equals the set value plus the sum of the increments of the elapsed cycles (less the two-cycle latency), its ns field is always in [0,10^9), the seconds advance exactly with the pulse per second, and it never goes back; the 64-bit time likewise. The increment is period plus active adjustment plus due drift whenever that is not negative; an adjustment given while idle acts for exactly its count of cycles; the drift acts in every rate-th cycle. False, and proved so: the time without a reset, negative sums, the 64-bit set with a fraction other than 16 bits, and adjustments given while one is in progress.", "quantifier": "every width and parameter setting, every sequence of resets, sets and settings, any number of cycles", "why_tests_cant": "unbounded time; the carry into the seconds is precomputed two cycles ahead, errors show once per second at particular residues", "anchors": ["fpga/lib/eth/rtl/ptp_clock.v"]}
{"id": "C47", "title": "Time arithmetic of the utilities is integer nanosecond arithmetic", "statement": "Normalising, adding, subtracting and taking the remainder of times ends without overflow and returns the unique normalised time of the integer nanosecond result (the remainder takes the sign of the divisor; a zero divisor returns the dividend), for operands that need not be normalised; on normalised times the five comparisons are those of the integers; the millisecond and timeval conversions are exact one way and cut towards zero the other way. Beyond 2^62 seconds the remainder is wrong, and comparing times that are not normalised is not comparison of times.", "quantifier": "every pair of times with at most 2^61 seconds and any 64-bit nanosecond field", "why_tests_cant": "the loops run a data-dependent number of times and the operand space has 2^256 points", "anchors": ["utils/timespec.c"]}
{"id": "C48", "title": "The receive queue map is RSS indirection with per-port tables", "statement": "Every request is answered exactly three cycles later with its tag (unless a reset falls in between). The queue is the destination itself when its top bit is set and direct mode is on for the port, and otherwise the entry of the port's own indirection table at (destination masked with the application mask) + (hash masked with the hash mask), modulo the table size; masks, mode and table are those of the acknowledged register and table writes since reset. Table reads and writes over AXI lite are answered once each, in order, without starvation, and the driver's addresses hit the entry meant. Defect: a table write offered during reset is performed though it is never accepted.", "quantifier": "every number of ports and width, every sequence of register, table and request inputs by masters that hold what they offer", "why_tests_cant": "all table contents, masks, interleavings of lookups with updates", "anchors": ["fpga/common/rtl/mqnic_rx_queue_map.v:109", "fpga/common/rtl/mqnic_rx_queue_map.v:206", "fpga/common/rtl/mqnic_rx_queue_map.v:327", "fpga/common/tb/mqnic.py:1363"]}
{"id": "C49", "title": "Completion queue manager pipeline is linearizable", "statement": "For every schedule of register writes, register reads, enqueue requests, commits and response backpressure, every response and every register value returned by the pipelined completion queue manager is the one an atomic (one operation at a time, no pipeline) manager gives for the operations taken in the order they leave the pipeline; responses and read values are delivered in that order, and each operation transferred on a channel enters exactly once.", "quantifier": "every pipeline depth >= 1, op table size up to 256, record size, input schedule and backpressure", "why_tests_cant": "read-modify-write hazards depend on exact cycle alignment of operations on the same queue", "anchors": ["fpga/common/rtl/cpl_queue_manager.v"]}
{"id": "C50", "title": "Completions become visible in order and eventually", "statement": "Completion records become visible to software (producer pointer) in the order they were handed out, each only after its write was committed, whatever the order of commits; the producer pointer counts exactly the retired records; once the oldest record is committed and the register port idle for 2 * PIPELINE + 1 cycles with a ready event sink, at least one more record becomes visible.", "quantifier": "every order of commits over any number of outstanding operations, every schedule", "why_tests_cant": "permutations of outstanding commits are unbounded", "anchors": ["fpga/common/rtl/cpl_queue_manager.v"]}
{"id": "C51", "title": "A write request changes exactly the bytes its byte enables select", "statement": "Handling a memory write request changes each enabled byte of the memory to the byte the packet carries for it and leaves every other byte unchanged, also for non-contiguous byte enables.", "quantifier": "every request length, address, byte enable pattern, payload and memory content", "why_tests_cant": "256 enable patterns times unbounded lengths and contents", "anchors": ["fpga/lib/pcie/tb/pcie.py:MemoryEndpoint.handle_mem_write_tlp", "fpga/lib/pcie/tb/pcie.py:RootComplex.handle_mem_write_tlp"]}
{"id": "C52", "title": "Memory written through PCIe reads back unchanged", "statement": "Writing a byte string through memory write requests changes exactly the bytes of that range in the endpoint's memory or in host memory, and reading the range back through read requests and split completions returns the string.", "quantifier": "every address, length, content, maximum payload size and maximum read request size", "why_tests_cant": "combinations of splitting rules on both sides", "anchors": ["fpga/lib/pcie/tb/pcie.py:Function.mem_write", "fpga/lib/pcie/tb/pcie.py:RootComplex.mem_write", "fpga/lib/pcie/tb/pcie.py:RootComplex.mem_read", "fpga/lib/pcie/tb/pcie.py:MemoryEndpoint.handle_mem_read_tlp"]}
{"id": "C53", "title": "Enumeration gives every device region its own aligned address range", "statement": "For a function declaring any mix of 32-bit, 64-bit, prefetchable and IO regions of any power-of-two size, whatever its base address registers held before, enumeration assigns each region a base aligned to its size inside the space of its kind, no two regions of a space overlap, and (if the space suffices) the registers hold these bases and a memory request to an address of a region matches exactly that region at the right offset, provided its 64-bit regions are below 4 GiB in size and addresses above 4 GiB meet no 32-bit region of the function. Known defects, each refuted: a 64-bit region of 4 GiB or more never matches, and a 32-bit region ignores the upper half of the address.", "quantifier": "every list of declared regions, every previous register contents, every starting limit, every address", "why_tests_cant": "sizes up to 2^63 and all combinations of region kinds", "anchors": ["fpga/lib/pcie/tb/pcie.py:Function.configure_bar", "fpga/lib/pcie/tb/pcie.py:Function.match_bar", "fpga/lib/pcie/tb/pcie.py:RootComplex.enumerate_segment"]}
{"id": "C54", "title": "Masked configuration writes change exactly the enabled writable bits", "statement": "A configuration write with byte enables and a writable-bit mask takes each bit from the new value when its byte is enabled and the bit is writable, and keeps the old bit otherwise.", "quantifier": "every old value, new value, byte-enable mask, writable mask and bit position", "why_tests_cant": "2^100 combinations", "anchors": ["fpga/lib/pcie/tb/pcie.py:byte_mask_update"]}
{"id": "C55", "title": "Frame FIFO without dropping loses nothing", "statement": "In frame mode without DROP_OVERSIZE_FRAME, frames of any length pass, longer ones than the memory included; nothing is dropped or reordered, each finished frame gives one good-frame pulse, and a ready sink gets everything but the tail of an unfinished frame.", "quantifier": "every depth, frame sequence and schedule", "why_tests_cant": "the switch to sending an unfinished frame depends on the fill level at each cycle", "anchors": ["fpga/lib/axis/rtl/axis_fifo.v"]}
{"id": "C56", "title": "MARK_WHEN_FULL cuts, terminates and reports frames that meet a full FIFO", "statement": "With MARK_WHEN_FULL the FIFO is always ready; each accepted frame comes out whole, or as a proper non-empty prefix ended by one beat with tlast and the bad frame value, or not at all; overflow pulses count exactly the frames not kept; unless the memory was full all are kept; once the source stops between frames and the sink reads, every cut frame is terminated.", "quantifier": "every depth, frame sequence and schedule", "why_tests_cant": "the cut position and the time of the terminating beat depend on the fill level at each cycle", "anchors": ["fpga/lib/axis/rtl/axis_fifo.v"]}
{"id": "C57", "title": "A store-and-forward FIFO sends each frame without gaps", "statement": "In frame mode with dropping and without the output FIFO, once a beat that is not the last of its frame is taken the next one is offered in the next cycle; with the output FIFO and the default RAM_PIPELINE of 1 this is false, the output stalls inside a stored frame.", "quantifier": "every depth, pipeline length, frame sequence and schedule", "why_tests_cant": "a gap needs a particular backpressure pattern before the frame is read", "anchors": ["fpga/lib/axis/rtl/axis_fifo.v"]}
{"id": "C58", "title": "Frame pause acts between frames only", "statement": "With FRAME_PAUSE the FIFO is never paused while a frame is partly delivered, and inside a frame an offered beat stays offered until taken; at a frame boundary a pause request takes back a beat that was already offered, so the stream rule that valid stays until ready is broken there.", "quantifier": "every depth, frame sequence, pause request and backpressure pattern", "why_tests_cant": "needs a pause request in every position of every frame", "anchors": ["fpga/lib/axis/rtl/axis_fifo.v"]}
{"id": "C59", "title": "PRBS31 test mode counts line errors exactly", "statement": "With the test pattern enabled the line carries an inverted PRBS31 sequence, and the error count reported for a block is the number of its bits for which an odd number of the line bits at distances 0, 28 and 31 were flipped; a clean line reports zero after synchronisation, and the counters do not overflow.", "quantifier": "every block width up to 125 bits, pipeline depth, bit order, initial state and error pattern", "why_tests_cant": "the counters are checked against all error patterns and start states", "anchors": ["fpga/lib/eth/rtl/eth_phy_10g_tx_if.v", "fpga/lib/eth/rtl/eth_phy_10g_rx_if.v"]}
{"id": "C60", "title": "Periodic output keeps the requested phase", "statement": "The start time that perout requests from the clock differs from the start asked for by a whole number of periods; if the start asked for has passed, the start requested is less than one period away from the current time, otherwise it is the one asked for. It may still be in the past.", "quantifier": "every current time, start and positive period", "why_tests_cant": "the arithmetic goes through shift-and-subtract division over unbounded loops", "anchors": ["utils/perout.c", "utils/timespec.c"]}
{"id": "C61", "title": "The transmit checksum unit inserts the right checksum into every frame", "statement": "Each frame handed to the transmit checksum unit with a command comes out once, in order, complete and unchanged, except that, if the command enables it, the two bytes at the given offset are the Internet checksum (high byte first) of the frame's bytes from the given start on (with USE_INIT_VALUE, plus the initial value); whatever the timing of the source, the command and the sink, with the two bytes in one beat or in two, and with an offset or start beyond the end of the frame. A frame is accepted after its command only and a command between frames only. Once the sink is ready everything accepted in full comes out, and the unit becomes ready again, as long as frames are no longer than the data FIFO; a frame more than two beats longer never gets in and blocks the unit. After a reset the same holds with USE_INIT_VALUE, and without it if the unit was idle; otherwise, without it, the checksum of the next frame may be wrong (a defect). A checksum that comes out as zero is sent as zero, which UDP takes for none.", "quantifier": "every sequence of frames and commands, every width from 4 to 65536 lanes (powers of two), all FIFO depths, every timing, every content of uninitialised memories", "why_tests_cant": "a pipelined adder tree beside two FIFOs that must stay in step under arbitrary back pressure; tests run a few widths, starts and offsets", "anchors": ["fpga/common/rtl/tx_checksum.v", "fpga/common/rtl/mqnic_egress.v:110-160"]}
{"id": "C62", "title": "The transmit engine sends every packet once, whole, in order, and completes it with its own data", "statement": "Every transmit request accepted asks for its descriptors once, in order. Transmit descriptors are issued one for each request that has something to send, in the order of the requests, each only when all descriptors of the packet are there and every byte of their data has been read, one descriptor after the other, to the place it is sent from; no DMA read is issued that belongs to no request. Checksum commands follow in the same order, as the first descriptor of the packet says (for a checksum start below 128; a later one is taken for 128 less, a defect). Completions follow in the same order, each after the packet was sent, with the queue, pointer, length and timestamp of that request. No request gets a second status or one it is not due (length 0 if there was nothing to send, the length once its completion is written), and a tag is used again only when the request that had it is over. If everything offered is taken, nothing gets stuck: the surroundings owe something, or every request is settled and the engine accepts the next. A packet may be read over one that is not sent yet when descriptors come back to back and the buffer is nearly full (a defect), and with a buffer offset other than 0 data is sent from elsewhere than it was read to (a defect; no instance has one).", "quantifier": "every sequence of requests, answers, descriptors and completions that answer only what was asked, every timing of every interface, every table size, buffer size and width that fit together, from power-up or after a reset in any state", "why_tests_cant": "five pointers chase each other around a table while answers come out of order; a mistake shows up only when particular answers meet in one cycle", "anchors": ["fpga/common/rtl/tx_engine.v"]}
{"id": "C63", "title": "The completion writer delivers every completion record once, to the place it was given, and commits it only when it is written", "statement": "Every completion write request accepted asks its queue manager for a place once, in order. Every answer taken gives one status with the tag of the request it answers (status is given when the queue manager answers, before the record is written). Every answer that is neither full nor an error gives one DMA write of a whole record from the row of that request to the address in the answer, and what the DMA engine reads from that row until the write is done is the data of the request with the phase bit of the answer in its last bit, segment by segment in the order of the read commands, at most the depth of the pipeline late. Commits are issued one for each request that may be written, in the order of the requests whatever the order of the answers, to the port it was asked from, with the operation tag of its answer, and only after its write is done. A tag is used again only when the request that had it is over. No port starves although lower ports go first: an answer offered is taken within four cycles per table entry while DMA writes are taken. If everything offered is taken, nothing gets stuck.", "quantifier": "every sequence of requests, answers out of order from any number of ports, and completions that answer only what was asked, every timing of every interface, every table size, record size and segment count that fit together, from power-up with any memory contents or after a reset in any state", "why_tests_cant": "answers and write completions arrive out of order and in the same cycle as new requests; a mix-up of two records or a commit ahead of its data shows only in particular coincidences", "anchors": ["fpga/common/rtl/cpl_write.v"]}
{"id": "C64", "title": "The descriptor fetcher fetches, hands on and commits every descriptor block once, in order, and never mixes two blocks up", "statement": "Every descriptor request accepted asks its queue manager once, in order. Every answer taken gives one status report with the fields of the answer, in order. Every answer that is neither empty nor an error gives one DMA read of the whole block (descriptor size times block size) from the address in the answer into the row of a table entry, and nothing else is read. Blocks are handed on to the requester in the order of the answers, whatever the order in which the reads complete, each from its own row with its own length under the tag of its request, and only after its read is complete. Dequeues are committed in the same order with the operation tag of the answer to the port it came from, where commits are taken in their first cycle or there is one port (with several ports a commit that has to wait can be overwritten by one of another port and is lost). A row is used again only after the block in it was handed on whole, and rows do not overlap. No more requests are in hand than the table has entries. An answer offered is taken, or one of a lower port is, within three cycles while DMA reads are taken; if everything offered is taken nothing gets stuck. An error reported by a DMA read is not looked at: the outputs are the same as without it.", "quantifier": "every sequence of requests, answers of any number of ports and completions that answer only what was asked, every timing of every interface, every table size, descriptor and block size that fit together, from power-up with any memory contents or after a reset in any state", "why_tests_cant": "reads complete out of order and several events fall into the same cycle; a descriptor taken for another one or a lost commit shows only in particular coincidences", "anchors": ["fpga/common/rtl/desc_fetch.v"]}
{"id": "C65", "title": "Enumeration configures a whole PCIe tree so that every request reaches exactly the function it is for", "statement": "For any tree of root ports, switches and devices with several functions, whatever its registers held before, enumeration from the root complex finishes if there are enough bus numbers and address space. Afterwards a configuration request reaches exactly the function with that bus, device and function number; a completion reaches its requester from wherever it is sent, and the root complex if that is the requester; a memory or IO request to an address in a region of a function reaches that function, from the root complex and from any device or port below it; a memory request from below to an address outside the spaces given out reaches the root complex; and no request or completion is handled by anyone it is not for. Not covered: addresses above 4 GiB whose low half lies above the start of the memory space. Known defects, each refuted: ID routed messages from the root complex to a switch port are answered as unsupported; the first address after the end of the space given out does not reach the root complex.", "quantifier": "every topology of switches and devices of any depth, every device and function number and declared region, every previous register contents, every sender and address", "why_tests_cant": "trees of unbounded depth and width, all sizes of regions, all pairs of sender and receiver", "anchors": ["fpga/lib/pcie/tb/pcie.py:RootComplex.enumerate_segment", "fpga/lib/pcie/tb/pcie.py:RootComplex.enumerate", "fpga/lib/pcie/tb/pcie.py:Bridge.upstream_recv", "fpga/lib/pcie/tb/pcie.py:Bridge.downstream_recv", "fpga/lib/pcie/tb/pcie.py:SwitchUpstreamPort.route_downstream_tlp", "fpga/lib/pcie/tb/pcie.py:Device.upstream_recv"]}
{"id": "C66", "title": "The receive engine delivers every packet once, to its own descriptors, in order, and reports it with its own data", "statement": "Every receive request accepted gets one receive command, in order. Descriptors are asked for once for each received packet, in order, from the queue the packet was mapped to. Every DMA write belongs to a request, and those of a request take its packet, piece by piece and without gaps from where it was received to, to its descriptors. Completions are issued one for each packet that has descriptors, in the order of the requests, after all its writes were handed over and at least one is done, with the queue, pointer, length, timestamp, hash, id and checksum of that packet. Statuses come one for each request, in order, when it is over (length 0 if there was no descriptor). A tag is used again only when the request that had it is over. While the MTU does not change, every packet is received within the buffer and not on top of one whose buffer is not released. If everything offered is taken, nothing gets stuck: the surroundings owe something, or every request is settled, and while the MTU does not change the engine accepts the next. Defects: a packet counts as written once its first write is done, so a completion may precede data and a buffer may be reused early; a write reported before the last descriptor came cuts the packet off; a packet found without descriptor before its checksum was taken passes its checksum to the next; the completion length ignores what the descriptors hold; a packet with empty descriptors only never completes; raising the MTU with a packet in flight stops the engine for good.", "quantifier": "every sequence of requests, packets, answers, descriptors and completions that answer only what was asked, every timing of every interface, every table size, buffer size and width that fit together, from power-up or after a reset in any state", "why_tests_cant": "five pointers chase each other around a table and two around a buffer while answers come out of order; a mistake shows up only when particular answers meet in one cycle or after a certain number of packets", "anchors": ["fpga/common/rtl/rx_engine.v"]}
{"id": "C67", "title": "Block synchronisation finds the right position and holds on to it exactly as long as the error rule says", "statement": "Block lock is reported only when the last 64 clocks brought valid sync headers with no slip asked for among them. Counted in windows of 64 headers from the moment of lock, lock is kept for as long as every window has at most 15 invalid headers, and lost within the first that has 16; without a reset it is never lost unless the last 64 or fewer headers have 16 invalid ones, and it never survives 31 invalid headers in a row. A slip is asked for only after an invalid header and out of lock, by a pulse of exactly the set length and a pause of at least the set length (each at least one clock), and the first header after the pause is looked at. With a transceiver that settles within the pause, shows only valid headers in one of the 66 positions and an invalid one among any 64 in the others, lock is reached in that position within 65 * (63 + pulse + pause) + 64 clocks and kept from then on.", "quantifier": "every sequence of headers and resets, every pulse and pause length, every transceiver, start position and time", "why_tests_cant": "two counters and a pulse timer interact; what happens at the end of a window, at the sixteenth error and in the pause depends on their phase, and acquisition takes thousands of clocks", "anchors": ["fpga/lib/eth/rtl/eth_phy_10g_rx_frame_sync.v"]}
{"id": "C68", "title": "The high bit error rate alarm is raised and cleared by counting invalid headers in fixed windows", "statement": "Cut into windows of one clock more than the set time, the sync headers since power-up or reset decide the alarm. It is raised with the sixteenth invalid header of a window and stays to the end of it. A window with 16 or more leaves it raised, one with fewer clears it, except that 15 invalid headers before the last clock and none there leave it as it was. Whatever happened before, the alarm never rises unless there were 16 invalid headers within one window. Defects: a window with 15 invalid headers, below the limit, need not clear the alarm; if the set time is a power of two, the timer register is one bit too short and the alarm is never raised.", "quantifier": "every sequence of headers and resets, every set time", "why_tests_cant": "the alarm depends on the phase of a window of some 20000 clocks, and the saturated count at the edge of the window decides; tests do not run long enough to meet the edges", "anchors": ["fpga/lib/eth/rtl/eth_phy_10g_rx_ber_mon.v"]}
{"id": "C69", "title": "The receive watchdog resets the transceiver after a series of poor windows and reports the link only after a series of good ones", "statement": "Time since a reset is cut into windows of one clock more than the set time. A window is poor if, its last clock aside, there was no control header in lock or there were 1023 or more errors in lock. A transceiver reset is asked for only for one clock, at the end of a window that follows 15 poor ones, and always within 16 poor windows in a row. The link is reported up only at the end of a window that follows 15 windows that were not poor and that had lock up to its last clock. It is reported down only by a reset or a clock without lock, and by every clock without lock that is not the last of a window. Defects: 15 poor windows followed by a good one still reset the transceiver; the link can be reported up in a clock without lock; if the set time is a power of two, the timer register is one bit too short and the transceiver is reset within any 16 clocks.", "quantifier": "every sequence of headers, errors, lock and resets, every set time", "why_tests_cant": "it takes 15 windows of some 20000 clocks each before anything happens, and what the last clock of each brings decides", "anchors": ["fpga/lib/eth/rtl/eth_phy_10g_rx_watchdog.v"]}
