# Formal model of corundum in Rocq (Coq 8.16.1)

## What is modelled and how

The repository mixes Python (driver model `fpga/common/tb/mqnic.py`, PCIe and
Ethernet simulation models, build tooling), Verilog (the NIC itself) and C
(kernel module and utilities).  Each modelled function is a total Gallina
function carrying a comment with the file and lines it models.

* Python functions: exceptions become explicit results; unbounded ints are `Z`
  or `N`; byte arrays are lists of numbers; `async` functions are split at their
  await points into the atomic steps of a transition system when another task
  can run in between.
* Verilog modules: a cycle-accurate state record and a `step` function from
  (state, inputs of one clock) to (state, outputs), or, where the module is a
  pipeline with hazard detection, the cycle-accurate pipeline is proved to
  refine an atomic operation-level machine and the properties are proved on
  both.  Registers wrap explicitly (`mod 2^n`).  Theorems quantify over every
  input sequence, including all valid/ready schedules, and over all parameters
  that the module leaves open (stated in each file).
* Synchronous reset is modelled as the initial state unless said otherwise.

File layout under `rocq/theories`:

* `Base/` – bit vectors, lists, stream helpers (no claims).
* `X_model.v` – the model, no proofs.
* `X_spec.v` – (when needed) the small independent specification.
* `X_proof.v` – lemmas.
* `X_props.v` – only the property theorems, each closed by `exact`, each
  followed by `Print Assumptions` and a non-vacuity `Example`.

Naming: `Cnn_..._` prefixes tie theorems to `properties.jsonl`; `_partial` means
that part of the English claim is missing (said next to it and in
`MANIFEST.json`); `_refuted` is a proof that the English claim is false for the
code as it stands (a finding).

## Trusted base

* Coq 8.16.1 kernel (including `vm_compute`).
* Axioms: see the list at the end of this file (target: none; every theorem
  should report "Closed under the global context").
* The hand translation from Python/Verilog/C to Gallina.  Not modelled unless
  said otherwise: simulator scheduling below one clock edge, X/Z values,
  physical timing/metastability, multi-clock behaviour except where a module
  is modelled with two independent clocks, cocotb internals.

## Plan per property

See the table; the status column is kept in MANIFEST.json.

| id | model | method |
|----|-------|--------|
| C01 | Resource pool as list | invariant over op lists, refinement to a set spec |
| C02 | enumerate loop with fuel; register file = function | strong induction on visited set; termination by pigeonhole |
| C03 | find loop | induction, equal to nth of filter |
| C04 | pointer update on Z | modular arithmetic |
| C05 | TX ring transition system | invariant |
| C06 | segment list of start_xmit | arithmetic + loop invariant |
| C07 | prepare_desc | same |
| C08 | alloc_pkt/free_pkt | invariant |
| C09 | producer/consumer over ring memory | invariant with ghost sequences |
| C10 | RX ring transition system | invariant |
| C11 | queue_manager pipeline, cycle level | simulation relation pipeline -> atomic ops |
| C12 | atomic queue manager | invariant + trace property |
| C13 | atomic queue manager op table FIFO | invariant |
| C14 | AXIL write/read functions | case analysis, frame lemmas |
| C15 | same | trace counting |
| C16 | cpl_queue_manager, cycle level (`Rtl/Cqm_*`) | refinement to atomic manager (C49), counting over event histories mod 2^16 |
| C17 | same | history of arm flag |
| C18 | same, event output register | refuted in general; invariant for the cases that hold |
| C49,C50 | same | simulation relation; op table FIFO; bounded-response argument |
| C19-C21 | tx_scheduler_rr, cycle level, with its two axis_fifo instances and its priority encoder (`Sched/Rr_*`, `Sched/RrOwe_*`, `Sched/RrGhost_proof.v`) | invariant: schedule FIFO and pipe hold the queues with the scheduled flag, each once; the order of service as a rotating list; for C20 a ghost list of the outstanding operations |
| C22,C23 | arbiter, priority_encoder | bit-vector induction over tree levels |
| C24 | axis_register (all three register types), cycle level (`Stream/Axis_*`) | simulation to a queue of at most two beats |
| C25, C26, C55-C58 | axis_fifo, every parameter but the width ones (`Stream/Fifo_*`); the RAM inference attributes are not modelled | refinement of the pointers to two queues, of the pipeline and output FIFO to a list; histories of accepted and delivered beats; a weight that falls for progress |
| C27 | axis_arb_mux, arbiter, cycle level (`Stream/Mux_*`, `Stream/Arb_*`) | invariants over frame histories |
| C28 | axis_cobs_encode with its two axis_fifo instances, axis_cobs_decode, output stages included (`Stream/Cobs*`); stuffing is a relation of its own | ghost blocks and bytes: what was delivered, waits in the FIFOs and is still owed makes up the stuffed frames; a measure for progress |
| C29 | rx_hash, every bus width (`Nic/RxHash_*`); tkeep is not used by the module, so bytes are those on the lanes | the parser's registers as functions of the bytes seen so far; output pipeline as a delay line; Toeplitz by bit windows |
| C30 | rx_checksum, every width from 32 bits up to 2^16 bytes and every start offset (`Nic/RxCsum_*`) | the adder tree is a delay line of partial sums; ones'-complement folding keeps the value modulo 65535 |
| C31 | lfsr.v mask computation and both output styles, every parameter (`Eth/Lfsr_*`) | masks are the symbolic state of the serial register; linearity over GF(2), induction over words |
| C32, C59 | eth_phy_10g_tx_if.v and the data path of eth_phy_10g_rx_if.v with pipelines, bit reversal and the PRBS31 mode, joined by a line that flips arbitrary bits (`Eth/Phy_*`, `Eth/Prbs_proof`); block lock, error rate monitor and watchdog are C67 to C69 | pipelines are delay lines, the registers are the last 58 (31) bits of the stream |
| C33 | xgmii_baser_enc_64, xgmii_baser_dec_64, registers included, joined by an error-free link (`Eth/Baser_*`); concatenations are field lists | packing lemmas, case analysis over the 17 branches, induction over the run |
| C34,C35 | the frame classes of eth_ep, arp_ep, ip_ep, udp_ep (`Net/Codec_*`); the MyHDL sources and sinks are not modelled | byte list lemmas, ones-complement arithmetic modulo 65535, linearity of the CRC register |
| C36-C37 | pcie.py TLP: byte enables, counts, completion fields, wire packing | bit arithmetic; round trip by unpacking each dword |
| C38-C39, C52 | pcie.py memory reads and writes of functions, root complex and endpoints: request splitting, completion splitting, reassembly, byte-exact memory | induction over chunks, lists as memory |
| C40 | pcie.py PcieCapList | permutation and sortedness invariants over any registration sequence |
| C41 | pcie.py alloc_region | invariant over any allocation sequence |
| C51 | endpoint write byte enables | bit arithmetic |
| C53 | pcie.py configure_bar, match_bar, BAR part of enumerate_segment (the tree walk and routing: C65) | induction over the declared regions |
| C54 | pcie.py byte_mask_update | bit arithmetic, induction over the loop |
| C42 | the Build coroutines of build_images.py and the two semaphores (`Tools/Build_*`); directory scan, status display and file copying are not modelled | transition system invariant; progress by a decreasing measure |
| C43 | edge interrupt tasks of the driver (`Driver/Irq_*`); handler bodies are an environment of any duration | accounting invariant over all histories |
| C44 | Txq/Rxq/Cq/Interface close and free_buf (`Driver/Close_*`); the register reads used as barriers and the EQ tables are not modelled | induction over ring contents, close is stuck in every state |
| C48 | mqnic_rx_queue_map, every port count and width, register bus and AXI lite table access included (`Nic/RxMap_*`) | invariant tying masks and table to the acknowledged writes; pipeline by unrolling three steps |
| C45 | stats_counter (`Nic/StatsCounter_*`) and stats_collect (`Nic/StatsCollect_*`), every width, count, depth and period; the collector's memory starts unknown | invariants over the observed history; the channel visited is found by a distance measure |
| C46 | ptp_clock (`Ptp/Clock_*`), every width, period, drift and pipeline length; increments of at most 28 bits of nanoseconds | invariant on the two pipelined increments and on the pair ns/ns-overflow; elapsed time by induction over the cycles |
| C47, C60 | timespec.c except the `double` conversions, and the start time computation of perout.c (`Utils/Timespec_*`), with 64-bit overflow as failure | loops by induction on a bound, which every theorem shows to exist; results stated as integer nanoseconds |
| C61 | tx_checksum with its two axis_fifo instances and output stage, any LEVELS from 2 to 16 (`Nic/TxCsum*`); the adder tree is that of `Nic/RxCsum_model` | ghost frames: what was sent, waits in the pipeline, the FIFOs and the output stage makes up the frames as they should be sent; measure for progress |
| C62 | tx_engine, any table size, buffer and widths that fit together (`Nic/TxEngine*`); its surroundings (queue manager, descriptor fetch, DMA, MAC, completion writer) are any that answer only what was asked | a ledger of requests built from what is handed over on the interfaces; an invariant ties every table entry and pointer to the ledger; measure for progress |
| C63 | cpl_write, any table size, number of ports, record and segment width (`Nic/CplWrite*`); queue managers, DMA engine and requesters are any that answer only what was asked, once, and hold an answer until it is taken | a ledger of requests built from what is handed over on the interfaces; an invariant ties every table entry and register to the ledger (an answer counts from the cycle before its ready goes high); pipeline content for the read side; measures for progress and for the absence of starvation |
| C64 | desc_fetch, any table size, number of ports, descriptor and block size (`Nic/DescFetch*`); queue managers, DMA engine and the reader that streams the fetched block are any that answer only what was asked, once, and hold an answer until it is taken; the memory and dma_client_axis_source are outside, the command to the latter is an output | a ledger built from what is handed over on the interfaces; an invariant ties every table entry, pointer and register to the ledger; a measure for progress |
| C65 | pcie.py bridges, switches, devices and root complex as far as they route TLPs; enumerate_segment as a whole, every configuration access routed through the tree (`Pcie/Tree*`); links without delay, no unconnected ports, capabilities and MSI left out | enumeration: simulation of a subtree's accesses by those of the whole tree, induction over the topology against a plan (bus numbers depth first, regions in order); routing: induction over the topology, ranges of ports apart |
| C66 | rx_engine, any table size, buffer and widths that fit together (`Nic/RxEngine*`); the queue map (C48) and the other surroundings (queue manager, descriptor fetch, DMA, checksum unit, completion writer) are any that answer only what was asked, report a write only after the last descriptor of the packet and all its writes were taken, and report a missing descriptor only after the checksum | a ledger of requests built from what is handed over on the interfaces; an invariant ties every table entry and pointer to the ledger; places in the ring as numbers that count laps; measure for progress |
| C67 | eth_phy_10g_rx_frame_sync, any pulse and pause length (`Eth/FrameSync_*`), alone and in a loop with a transceiver that is any function of the bits slipped, the time and the time since the last slip | a case analysis of one clock; the counters are the length of the streak or window and the invalid headers in it; induction over the positions left for acquisition |
| C68 | eth_phy_10g_rx_ber_mon, any set time that is a whole number (`Eth/BerMon_*`) | the state inside and at the end of a window as a function of the headers in it; induction over windows |
| C69 | eth_phy_10g_rx_watchdog, any set time that is a whole number, reset taken with the clock (`Eth/Watchdog_*`) | as C68; the two counters are the lengths of the runs of poor and other windows |

## Findings (properties of the code that are false, each with a `_refuted` theorem)

* C14 `C14_cq_base_strobe_refuted`: cpl_queue_manager.v byte strobes of the low
  base-address word are off by one (byte n is gated by strobe n-1).
* C18 `C18_event_overwritten_refuted`: a register write that arms a non-empty
  completion queue overwrites an event still waiting for the sink.
* C02 `C02_c_reads_stay_in_window_refuted`: see Regs_props.v.
* C10 `C10_small_rings_receive_refuted`: see Ring_props.v.
* C36 `C36_lower_address_refuted`, C37 `C37_config_round_trip_refuted` and
  `C37_request_round_trip_refuted`: pcie.py packet fields that are wrong or lost.
* C38 `C38_function_read_refuted`: a function read crossing a 4 KiB page end.
* C40 `C40_automatic_overlap_refuted`, `C40_single_header_refuted`.
* C41 `C41_odd_sizes_overlap_refuted`: the allocator's limit is one byte short.
* C53 `C53_large_region_refuted`, `C53_alias_refuted`: match_bar takes the low half of
  a 64-bit region of 4 GiB or more for an unused register, and ignores the upper half
  of the address for 32-bit regions.
* C57 `C57_output_fifo_gap_refuted`: axis_fifo with OUTPUT_FIFO_ENABLE and the default
  RAM_PIPELINE of 1 leaves a gap inside a stored frame after the sink stalls.
* C58 `C58_pause_retracts_offer_refuted`: a pause request withdraws a beat offered but
  not yet taken.
* C34 `C34_wide_mac_refuted`: a MAC address of more than 48 bits is cut silently.
* C35 `C35_ip_verify_ffff_refuted`, `C35_udp_zero_checksum_refuted`: the verifiers
  reject 0xFFFF for 0, and a UDP checksum computed as 0 is sent as 0 ("none").
* C42 `C42_failed_build_refuted`: a build ended by an exception keeps its permits.
* C43 `C43_exactly_once_refuted`, `C43_from_edge_refuted`: a line held high is retriggered by other lines; `from_edge` interrupts never fire.
* C47 `C47_huge_mod_refuted`, `C47_compare_unnormalised_refuted`: timespec_mod is wrong when the dividend exceeds 2^62 s; the comparisons do not normalise.
* C60 `C60_start_in_future_refuted`: the start perout computes in place of a past one may itself be past.
* C29 `C29_long_ipv6_refuted`, `C29_short_frame_refuted`: the beat counter wraps in long IPv6 frames and payload is hashed as an IPv4 header; a frame cut in the IPv4 header is reported with the hash of an earlier frame.
* C30 `C30_start_offset_refuted`, `C30_reset_refuted`: with a start offset of 2, 4, 8, ... beats the beat counter is one bit too narrow and the first beats are summed; reset does not clear the accumulator, so the next frame's checksum includes a frame cut by the reset.
* C44 `C44_close_refuted`, `C44_hole_refuted`: Interface.close raises whenever a queue exists and disables nothing; free_buf asserts on out-of-order holes.
* C31 note: the drawing in the comment of lfsr.v shows the Galois output taken from the last flip-flop; the code (and the model) output it XORed with the input bit.
* C48 `C48_write_in_reset_refuted`: a table write offered during reset is performed though never accepted.
* C45 `C45_starvation_refuted`, `C45_torn_read_refuted`: polling one counter starves its increments; the two words of a 64-bit counter are read without a snapshot. `C45_collect_overflow_refuted`: the 24-bit sum of 16-bit increments overflows within the default period. `C45_collect_rate_refuted`: with UPDATE_PERIOD - 1 a power of two the period counter is too narrow and every visit is a report.
* C46 `C46_power_up_refuted`: without a reset after power-up the clock reads one second. `C46_negative_refuted`: a sum of period, adjustment and drift below zero wraps to a leap forward. `C46_load64_refuted`: the 64-bit time set is not scaled when FNS_WIDTH is not 16. `C46_adjustment_lost_refuted`: an adjustment given while another is counting loses its count. Also, reset does not clear the pipelined increment.
* C19 `C19_unstrobed_write_refuted`: a register write of the queue enable bit with its byte strobe clear schedules the queue without setting its scheduled flag; it enters the FIFO once per such write and the active count never returns to zero.
* C20 `C20_overtaken_refuted`: if the transmit engine answers two requests of one queue out of order, both empty, a doorbell between the answers is lost (the tail operation is gone, so the doorbell is noted nowhere and the older empty completion clears the active flag).
* C20 `C20_global_enable_refuted`: with SCHED_CTRL_ENABLE a completion tests bit 1 of its own write data (tx_scheduler_rr.v:676) instead of the global enable bit of the queue; a queue enabled only globally stays active and is not scheduled again.
* C20 `C20_full_refuted`: the ready output of the doorbell FIFO is not connected; a doorbell that finds it full is dropped.
* C33 `C33_os_start_refuted`: xgmii_baser_dec_64.v decodes the block "ordered set in lane 0, start in lane 4" with xgmii_rxc[3:0] = 4'hf instead of 4'h1 (xgmii_baser_dec_64.v:239): the three data bytes of the ordered set come out as control characters.
* C28 `C28_redundant_code_refuted`: axis_cobs_decode.v does not end a frame whose encoding has 254 bytes in its last nonempty group followed by an empty group (FF, 254 bytes, 01, 00), which the COBS definition allows: nothing is held back in temp_tdata then, tlast is never sent, and the next frame is appended. The encoder of the repository does not produce it.
* C61 `C61_reset_refuted`: without USE_INIT_VALUE (as in mqnic_egress.v) sum_acc_reg of tx_checksum.v is neither reset nor loaded at the start of a frame, so a reset in the middle of a frame makes the checksum of the next one wrong. `C61_zero_checksum_refuted`: a computed checksum of zero is sent as 0x0000, which for UDP means that there is none, not as 0xffff.
* C62 `C62_checksum_start_refuted`: the transmit engine keeps seven of the eight bits of csum_start, so a checksum that starts at byte 128 or later is computed 128 bytes too early (the Linux driver offloads starts up to 255). `C62_overwrite_refuted`: s_axis_desc_tready is computed from a write pointer that does not count the packet accepted in the same cycle, so with a 32 KB buffer and four 9000-byte packets a packet is read over one not yet sent. `C62_offset_refuted`: `a & MASK + OFFSET` in tx_engine.v:713 parses as `a & (MASK + OFFSET)`, so with a TX_BUFFER_OFFSET other than 0 data is sent from where it was not read to.
* C64 `C64_commits_refuted`: the descriptor fetcher waits for the pending commit of the port it is about to commit to only, but a new commit replaces the pending one whatever its port, so with several ports a commit that is not taken in its first cycle can be lost and its queue never moves on (the queue manager in the tree takes commits at once unless it is disabled). `C64_read_errors_ignored`: the error a DMA read of descriptors reports is not looked at; whatever the memory holds is handed on as a good descriptor.
* C65 `C65_messages_refuted`: ID routed messages are passed down by the bus number of the requester instead of the destination (pcie.py 2826), so a message from the root complex to a switch port is answered as an unsupported request.
* C65 `C65_end_refuted`: the host bridge's window limits are set to the end of the space given out, which the bridge takes as the last address, so host memory at that address cannot be reached from a device (pcie.py 4499-4505).
* C66 `C66_all_written_refuted`, `C66_overwrite_refuted`: the receive engine takes a packet as written when the first of its DMA writes is done (rx_engine.v 814-824), so with several descriptors the completion can reach the host before the data, and the buffer can be received into while the rest is still being read.
* C66 `C66_early_report_refuted`: if that first write is reported before the last descriptor has come, the request ends and the rest of the packet is dropped.
* C66 `C66_checksum_order_refuted`: if there is no descriptor for a packet and the engine learns so before it took the checksum of the packet, that checksum goes to the next packet (rx_engine.v 827-841).
* C66 `C66_length_refuted`: the completion says the length of the packet even if the descriptors held less. `C66_empty_refuted`: a packet with empty descriptors only is never completed.
* C66 `C66_mtu_refuted`: the space taken and given back is computed from the MTU of the moment, so raising the MTU while a packet is in flight lets the read pointer overtake the write pointer, and the engine accepts no request until reset (rx_engine.v 696-700, 851-866).
* C68 `C68_fifteen_refuted`: at the end of a window the alarm is cleared only if the count is not 15 (eth_phy_10g_rx_ber_mon.v 86-101), but 15 is also the count after 15 errors, fewer than the 16 that raise it.
* C68, C69 `..._power_of_two_refuted`: the timer register has $clog2(COUNT_125US) bits (ber_mon 62, watchdog 71), one too few to hold a power of two; the default, 19531, is none.
* C69 `C69_sixteenth_refuted`, `C69_no_lock_refuted`: the request and the status are decided by the counts of the windows before (watchdog 130-137), so a good sixteenth window still ends in a reset, and a loss of lock in the last clock is overruled.
