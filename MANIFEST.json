{
 "claims": [
  {
   "property": "C01",
   "status": "proved",
   "theorems": [
    "C01_resource_pool_history"
   ],
   "note": "Python Resource (mqnic.py)"
  },
  {
   "property": "C02",
   "status": "proved",
   "theorems": [
    "C02_enumerate_terminates_and_lists_chain",
    "C02_outcome_determined_by_chain",
    "C02_c_enumerate_terminates_and_lists_chain",
    "C02_c_reads_stay_in_window_refuted"
   ],
   "note": "Python and C versions; finding: the C loop can read past the window"
  },
  {
   "property": "C03",
   "status": "proved",
   "theorems": [
    "C03_find_returns_nth_match",
    "C03_c_find_agrees"
   ],
   "note": ""
  },
  {
   "property": "C04",
   "status": "proved",
   "theorems": [
    "C04_pointer_recovered_after_wrap"
   ],
   "note": ""
  },
  {
   "property": "C05",
   "status": "proved",
   "theorems": [
    "C05_tx_ring_safe",
    "C05_tx_ring_reclaimed_to_oldest_pending"
   ],
   "note": "driver TX ring composed with an arbitrary well-behaved hardware side"
  },
  {
   "property": "C06",
   "status": "proved",
   "theorems": [
    "C06_tx_descriptor_covers_packet",
    "C06_checksum_command_encoding",
    "C05_tx_ring_safe"
   ],
   "note": ""
  },
  {
   "property": "C07",
   "status": "proved",
   "theorems": [
    "C07_rx_descriptor_tiles_buffer"
   ],
   "note": ""
  },
  {
   "property": "C08",
   "status": "proved",
   "theorems": [
    "C08_packet_pool_history"
   ],
   "note": ""
  },
  {
   "property": "C09",
   "status": "proved",
   "theorems": [
    "C09_completion_ring_exactly_once"
   ],
   "note": ""
  },
  {
   "property": "C10",
   "status": "proved",
   "theorems": [
    "C10_rx_packets_delivered_exactly_once",
    "C10_rx_refill_keeps_ring_full",
    "C10_small_rings_receive_refuted"
   ],
   "note": "finding: rings with fewer than 8 slots are never filled"
  },
  {
   "property": "C11",
   "status": "proved",
   "theorems": [
    "C11_queue_manager_linearizable",
    "C11_queue_manager_ports",
    "C11_queue_manager_write_channel",
    "C11_queue_manager_read_channel",
    "C11_queue_manager_request_channel"
   ],
   "note": "cycle-accurate queue_manager.v, any PIPELINE >= 1, op table size <= 256, any schedule; users commit only tags they were given, once"
  },
  {
   "property": "C12",
   "status": "proved",
   "theorems": [
    "C12_descriptors_in_order",
    "C12_descriptors_exactly_once"
   ],
   "note": "exactly-once form assumes software never publishes 2^16 descriptors ahead"
  },
  {
   "property": "C13",
   "status": "proved",
   "theorems": [
    "C13_retire_in_order",
    "C13_consumer_pointer_counts_retirements",
    "C13_committed_operation_is_retired"
   ],
   "note": "safety and progress"
  },
  {
   "property": "C14",
   "status": "proved",
   "theorems": [
    "C14_cq_reads",
    "C14_cq_config_frozen_while_enabled",
    "C14_cq_base_full_word",
    "C14_cq_base_strobe_refuted",
    "C14_queue_manager_reads",
    "C14_queue_config_frozen_while_enabled",
    "C14_base_address_bytes",
    "C14_readback"
   ],
   "note": "Both queue managers. Finding: the low-word byte strobes of the completion queue base address are off by one (C14_cq_base_strobe_refuted states the actual behaviour); full-word writes are right."
  },
  {
   "property": "C15",
   "status": "proved",
   "theorems": [
    "C15_doorbell_exact"
   ],
   "note": ""
  },
  {
   "property": "C16",
   "status": "proved",
   "theorems": [
    "C16_records_in_order",
    "C16_never_overruns",
    "C16_slot_reused_only_after_consumed"
   ],
   "note": "Cycle model of cpl_queue_manager.v; hypothesis: software consumes only visible records."
  },
  {
   "property": "C17",
   "status": "proved",
   "theorems": [
    "C17_armed_queue_raises_one_event",
    "C17_events_need_arming",
    "C17_events_reach_output_register"
   ],
   "note": "No continuous mode exists in the code; one event per arming is exact."
  },
  {
   "property": "C18",
   "status": "proved",
   "theorems": [
    "C18_event_overwritten_refuted",
    "C18_completion_events_not_lost",
    "C18_ready_sink_loses_nothing"
   ],
   "note": "Finding: C18_event_overwritten_refuted - a register write arming a non-empty queue overwrites a backpressured event."
  },
  {
   "property": "C19",
   "status": "proved",
   "theorems": [
    "C19_schedule",
    "C19_request_allowed",
    "C19_request_stable",
    "C19_enable_bit",
    "C19_register_access",
    "C19_effect_delay",
    "C19_status_read",
    "C19_unstrobed_write_refuted"
   ],
   "note": "Cycle-level model with the real FIFOs, priority encoder and pipeline. C19_unstrobed_write_refuted shows the case the statement excludes."
  },
  {
   "property": "C20",
   "status": "proved",
   "theorems": [
    "C20_doorbell_kept",
    "C20_no_lost_doorbell",
    "C20_overtaken_refuted",
    "C20_global_enable_refuted",
    "C20_full_refuted"
   ],
   "note": "Ghost list of outstanding operations; the transmit engine is assumed not to answer a request empty after a later one of its queue (C20_overtaken_refuted shows why), the FIFO to have room (C20_full_refuted), and the scheduling conclusion asks for the scheduler-control bit (C20_global_enable_refuted)."
  },
  {
   "property": "C21",
   "status": "proved",
   "theorems": [
    "C21_fair"
   ],
   "note": "Over the requests as they begin on the port; resets excluded between the two requests."
  },
  {
   "property": "C22",
   "status": "proved",
   "theorems": [
    "C22_one_hot",
    "C22_grant_to_requester",
    "C22_fixed_priority",
    "C22_held",
    "C22_fair",
    "C22_fixed_priority_starves"
   ],
   "note": "Arbiter over all port counts, parameters and request/acknowledge schedules; fairness is counted in grants."
  },
  {
   "property": "C23",
   "status": "proved",
   "theorems": [
    "C23_valid",
    "C23_encoded",
    "C23_unencoded",
    "C23_only_real_bits"
   ],
   "note": "All widths, both priorities, bit-level model of the encoder tree."
  },
  {
   "property": "C24",
   "status": "proved",
   "theorems": [
    "C24_skid_preserves",
    "C24_simple_preserves",
    "C24_bypass_preserves",
    "C24_skid_output_stable",
    "C24_simple_output_stable",
    "C24_skid_drains",
    "C24_simple_drains",
    "C24_skid_full_throughput",
    "C24_simple_accepts_again",
    "C24_skid_ready_when_room",
    "C24_disabled_signals",
    "C24_reset"
   ],
   "note": "every schedule, from power-on or any reset"
  },
  {
   "property": "C25",
   "status": "proved",
   "theorems": [
    "C25_fifo_preserves",
    "C25_fifo_refuses_only_when_full",
    "C25_fifo_drains",
    "C25_fifo_accepts_again",
    "C25_fifo_output_stable",
    "C25_fifo_fill_level"
   ],
   "note": "every schedule, from power-on or any reset"
  },
  {
   "property": "C26",
   "status": "proved",
   "theorems": [
    "C26_frames_whole_or_dropped",
    "C26_one_status_per_cycle"
   ],
   "note": "every schedule, from power-on or any reset"
  },
  {
   "property": "C27",
   "status": "proved",
   "theorems": [
    "C27_whole_frames",
    "C27_source_marked",
    "C27_unmodified",
    "C27_fair",
    "C27_progress"
   ],
   "note": "Multiplexer composed of the arbiter model and the skid output stage; includes fairness and progress."
  },
  {
   "property": "C28",
   "status": "proved",
   "theorems": [
    "C28_stuffing",
    "C28_encoder",
    "C28_encoder_complete",
    "C28_delimiter",
    "C28_encoder_accepts",
    "C28_decoder",
    "C28_decoder_complete",
    "C28_resync",
    "C28_decoder_accepts",
    "C28_round_trip",
    "C28_round_trip_prefix",
    "C28_stable",
    "C28_redundant_code_refuted"
   ],
   "note": "Both modules with FIFOs and output stages, cycle by cycle; C28_redundant_code_refuted names an encoding the decoder does not end."
  },
  {
   "property": "C29",
   "status": "proved",
   "theorems": [
    "C29_report_per_frame",
    "C29_after_reset",
    "C29_long_ipv6_refuted",
    "C29_short_frame_refuted"
   ],
   "note": "Cycle-accurate model at every bus width, from power-up and after a reset in any state; the two defects are refuted theorems."
  },
  {
   "property": "C30",
   "status": "proved",
   "theorems": [
    "C30_checksum_per_frame",
    "C30_nothing_before",
    "C30_checksum_of_bytes",
    "C30_start_offset_refuted",
    "C30_reset_refuted"
   ],
   "note": "Cycle-accurate model, for all widths and start offsets; the two defects are refuted theorems."
  },
  {
   "property": "C31",
   "status": "proved",
   "theorems": [
    "C31_parallel_is_serial",
    "C31_output_widths",
    "C31_width_independent",
    "C31_ethernet_crc"
   ],
   "note": "Parallel module = serial register in every configuration; width independence; Ethernet CRC-32."
  },
  {
   "property": "C32",
   "status": "proved",
   "theorems": [
    "C32_inverse",
    "C32_error_propagation",
    "C32_header",
    "C32_scrambler_disabled",
    "C32_self_synchronizing"
   ],
   "note": "Inverse at word level; the link theorem gives exact error propagation and self-synchronisation."
  },
  {
   "property": "C33",
   "status": "proved",
   "theorems": [
    "C33_round_trip",
    "C33_block_format",
    "C33_bad_iff_illegal",
    "C33_illegal_shows_error",
    "C33_bad_block_shows_error",
    "C33_sequence",
    "C33_os_start_refuted"
   ],
   "note": "Encoder and decoder with their registers. The blocks are those of the standard, round trip for every legal format but one, tx_bad_block iff illegal, error characters, sequence errors; C33_os_start_refuted is the format the decoder gets wrong."
  },
  {
   "property": "C34",
   "status": "proved",
   "theorems": [
    "C34_ethernet_layout",
    "C34_ethernet_round_trip",
    "C34_ethernet_rebuild",
    "C34_fcs_round_trip",
    "C34_arp_layout",
    "C34_arp_round_trip",
    "C34_ip_layout",
    "C34_ip_round_trip",
    "C34_ip_rebuild",
    "C34_udp_layout",
    "C34_udp_round_trip",
    "C34_wide_mac_refuted"
   ],
   "note": "Layout and round trips for all in-range fields; MAC truncation shown by C34_wide_mac_refuted."
  },
  {
   "property": "C35",
   "status": "proved",
   "theorems": [
    "C35_ip_checksum",
    "C35_ip_verify",
    "C35_udp_checksum",
    "C35_udp_ip_checksum",
    "C35_udp_verify",
    "C35_ip_verify_ffff_refuted",
    "C35_udp_zero_checksum_refuted"
   ],
   "note": "Checksum generation and verification; the two corner cases that break RFC 1071/768 are the _refuted theorems."
  },
  {
   "property": "C36",
   "status": "proved",
   "theorems": [
    "C36_enabled_bytes_exact",
    "C36_byte_count",
    "C36_byte_count_of_request",
    "C36_write_carries_data",
    "C36_lower_address_partial",
    "C36_lower_address_refuted"
   ],
   "note": "Byte enables, byte count and payload exact for every address, length and enable pattern; the lower-address helper is exact only for dword-aligned requests (C36_lower_address_partial) and refuted for all others."
  },
  {
   "property": "C37",
   "status": "proved",
   "theorems": [
    "C37_completion_round_trip",
    "C37_config_round_trip_partial",
    "C37_config_round_trip_refuted",
    "C37_request_round_trip_refuted",
    "C37_request_address_on_wire"
   ],
   "note": "Round trip for completions; exact behaviour for configuration, memory and IO requests, where the round trip is refuted."
  },
  {
   "property": "C38",
   "status": "proved",
   "theorems": [
    "C38_writes_tile",
    "C38_root_reads_tile",
    "C38_function_read_partial",
    "C38_function_read_refuted"
   ],
   "note": "Writes and root complex reads; function reads with one request (C38_function_read_partial), refuted for more (C38_function_read_refuted)."
  },
  {
   "property": "C39",
   "status": "proved",
   "theorems": [
    "C39_completions_answer",
    "C39_reassembly",
    "C39_endpoint_is_completer",
    "C39_host_is_completer"
   ],
   "note": "Completions of both completers, and reassembly from any legal cutting."
  },
  {
   "property": "C40",
   "status": "proved",
   "theorems": [
    "C40_sorted_and_linked",
    "C40_every_capability_once",
    "C40_explicit_offset_honoured",
    "C40_registering_again_updates",
    "C40_free_place_keeps_others",
    "C40_automatic_place_partial",
    "C40_automatic_packed",
    "C40_register_resolves",
    "C40_automatic_overlap_refuted",
    "C40_single_header_refuted"
   ],
   "note": "Sorting, linking and identities proved for every registration sequence; automatic placement overlap and the lone header are refuted as code defects."
  },
  {
   "property": "C41",
   "status": "proved",
   "theorems": [
    "C41_regions_disjoint",
    "C41_regions_aligned",
    "C41_odd_sizes_overlap_refuted"
   ],
   "note": "Even sizes; overlap with odd sizes is refuted by C41_odd_sizes_overlap_refuted. The rounded-up logarithm is a parameter."
  },
  {
   "property": "C42",
   "status": "proved",
   "theorems": [
    "C42_limits",
    "C42_permit_accounting",
    "C42_permits_return",
    "C42_no_deadlock",
    "C42_failed_build_refuted"
   ],
   "note": "All interleavings; the leak after an exception is C42_failed_build_refuted."
  },
  {
   "property": "C43",
   "status": "proved",
   "theorems": [
    "C43_calls_exact",
    "C43_no_edge_lost",
    "C43_exactly_once",
    "C43_single_line",
    "C43_calls_do_not_overlap",
    "C43_exactly_once_refuted",
    "C43_from_edge_refuted"
   ],
   "note": "Accounting invariant over all histories; the literal 'exactly once per rising edge' is refuted (last_val is never updated) and from_edge never queues (missing await)."
  },
  {
   "property": "C44",
   "status": "proved",
   "theorems": [
    "C44_queue_close",
    "C44_completion_queue_close",
    "C44_free_buf",
    "C44_idle_close",
    "C44_close_refuted",
    "C44_hole_refuted"
   ],
   "note": "True part proved; Interface.close with queues refuted for every state (await on a plain function, coroutines never awaited)."
  },
  {
   "property": "C45",
   "status": "proved",
   "theorems": [
    "C45_collect_no_excess",
    "C45_collect_update",
    "C45_collect_period",
    "C45_collect_modulo",
    "C45_collect_rate",
    "C45_collect_stable",
    "C45_collect_rate_refuted",
    "C45_collect_overflow_refuted",
    "C45_counter_reads",
    "C45_counter_latency",
    "C45_counter_progress",
    "C45_starvation_refuted",
    "C45_torn_read_refuted"
   ],
   "note": "Both modules, all parameters (COUNT >= 2, PIPELINE >= 2, UPDATE_PERIOD >= 3) and all histories. Counter theorems assume that masters hold what they offer; widths assumed by the overflow-free theorems are the hypothesis fits, shown to fail for the DMA widths by C45_collect_overflow_refuted."
  },
  {
   "property": "C46",
   "status": "proved",
   "theorems": [
    "C46_time96",
    "C46_time64",
    "C46_increment",
    "C46_adjustment",
    "C46_drift",
    "C46_pps",
    "C46_monotonic",
    "C46_step",
    "C46_pipeline",
    "C46_power_up_refuted",
    "C46_negative_refuted",
    "C46_load64",
    "C46_load64_refuted",
    "C46_adjustment_lost_refuted"
   ],
   "note": "The true part in full, the false parts as _refuted theorems; increments of at most 28 bits of ns."
  },
  {
   "property": "C47",
   "status": "proved",
   "theorems": [
    "C47_normalise",
    "C47_add",
    "C47_sub",
    "C47_mod",
    "C47_compare",
    "C47_milliseconds",
    "C47_to_milliseconds",
    "C47_timeval",
    "C47_huge_mod_refuted",
    "C47_compare_unnormalised_refuted"
   ],
   "note": "All functions of timespec.c but the double conversions; loops and overflow included; two defects as refuted theorems."
  },
  {
   "property": "C48",
   "status": "proved",
   "theorems": [
    "C48_response",
    "C48_no_early_response",
    "C48_queue_in_range",
    "C48_own_table",
    "C48_driver_address",
    "C48_table_reads",
    "C48_table_reads_complete",
    "C48_table_write_responses",
    "C48_write_progress",
    "C48_read_progress",
    "C48_register_read",
    "C48_register_unique",
    "C48_write_in_reset_refuted"
   ],
   "note": "full module, every parameter; masters hold what they offer; write offered during reset is the named defect"
  },
  {
   "property": "C49",
   "status": "proved",
   "theorems": [
    "C49_cpl_queue_manager_linearizable",
    "C49_cpl_queue_manager_ports",
    "C49_cpl_queue_manager_write_channel",
    "C49_cpl_queue_manager_read_channel",
    "C49_cpl_queue_manager_request_channel"
   ],
   "note": "Depth, table size and record size are parameters."
  },
  {
   "property": "C50",
   "status": "proved",
   "theorems": [
    "C50_completions_retire_in_order",
    "C50_producer_pointer_counts_retirements",
    "C50_committed_completion_is_retired"
   ],
   "note": "In order, counted and progress."
  },
  {
   "property": "C51",
   "status": "proved",
   "theorems": [
    "C51_write_enables_exact"
   ],
   "note": ""
  },
  {
   "property": "C52",
   "status": "proved",
   "theorems": [
    "C52_endpoint_write_exact",
    "C52_write_then_read",
    "C52_host_write_exact"
   ],
   "note": "Memory-backed regions; callback-backed regions are not modelled."
  },
  {
   "property": "C53",
   "status": "proved",
   "theorems": [
    "C53_configured",
    "C53_enumeration",
    "C53_large_region_refuted",
    "C53_alias_refuted"
   ],
   "note": "Tree traversal and config routing not modelled; the two defects of match_bar are refuted."
  },
  {
   "property": "C54",
   "status": "proved",
   "theorems": [
    "C54_masked_write_exact"
   ],
   "note": ""
  },
  {
   "property": "C55",
   "status": "proved",
   "theorems": [
    "C55_frame_mode_lossless"
   ],
   "note": "every schedule, from power-on or any reset"
  },
  {
   "property": "C56",
   "status": "proved",
   "theorems": [
    "C56_mark_always_ready",
    "C56_mark_cuts_and_reports",
    "C56_mark_terminates_frames"
   ],
   "note": "every schedule, from power-on or any reset"
  },
  {
   "property": "C57",
   "status": "proved",
   "theorems": [
    "C57_frames_without_gaps",
    "C57_output_fifo_gap_refuted"
   ],
   "note": "holds without the output FIFO; refuted with it at RAM_PIPELINE=1 (concrete run)"
  },
  {
   "property": "C58",
   "status": "proved",
   "theorems": [
    "C58_pause_between_frames",
    "C58_frame_output_stable",
    "C58_pause_retracts_offer_refuted"
   ],
   "note": "boundary rule proved; retraction of an offered beat at a boundary shown as a refutation"
  },
  {
   "property": "C59",
   "status": "proved",
   "theorems": [
    "C59_prbs31_on_the_line",
    "C59_error_count",
    "C59_no_false_errors"
   ],
   "note": "Exact error count of the PRBS31 checker."
  },
  {
   "property": "C60",
   "status": "proved",
   "theorems": [
    "C60_perout_start",
    "C60_start_in_future_refuted"
   ],
   "note": "perout.c start computation over the modelled timespec functions; a start in the past is refuted to be always replaced by a future one."
  },
  {
   "property": "C61",
   "status": "proved",
   "theorems": [
    "C61_in_order",
    "C61_delivered",
    "C61_becomes_ready",
    "C61_frame_limit",
    "C61_framing",
    "C61_stable",
    "C61_after_reset",
    "C61_after_idle_reset",
    "C61_reset_refuted",
    "C61_zero_checksum_refuted"
   ],
   "note": "The unit with its FIFOs and output stage, cycle by cycle, for all widths and depths; order, content, delivery, readiness, frame limit, resets; C61_reset_refuted and C61_zero_checksum_refuted name what does not hold."
  },
  {
   "property": "C62",
   "status": "proved",
   "theorems": [
    "C62_transmit",
    "C62_checksum_commands",
    "C62_completions",
    "C62_status",
    "C62_requests",
    "C62_reads",
    "C62_tag_reuse",
    "C62_progress",
    "C62_checksum_start_refuted",
    "C62_overwrite_refuted",
    "C62_offset_refuted"
   ],
   "note": "All of tx_engine.v. The surroundings are constrained to answer only what was asked (lawful); examples show runs that meet it. Three refuted claims document defects: csum_start truncated to seven bits, buffer overrun with back-to-back descriptors, operator precedence with TX_BUFFER_OFFSET."
  },
  {
   "property": "C63",
   "status": "proved",
   "theorems": [
    "C63_enqueue",
    "C63_status",
    "C63_writes",
    "C63_data",
    "C63_data_comes",
    "C63_commits",
    "C63_tag_reuse",
    "C63_no_starvation",
    "C63_progress"
   ],
   "note": "Surroundings are any that answer only what was asked, once, and hold an answer until it is taken. Rows of the record memory are addressed by table index."
  },
  {
   "property": "C64",
   "status": "proved",
   "theorems": [
    "C64_asks",
    "C64_status",
    "C64_reads",
    "C64_hands_on",
    "C64_commits",
    "C64_row_reuse",
    "C64_rows_apart",
    "C64_limit",
    "C64_answers_taken",
    "C64_progress",
    "C64_read_errors_ignored",
    "C64_commits_refuted"
   ],
   "note": "Commits under prompt (taken in the first cycle, or one port); C64_commits_refuted shows the loss otherwise. C64_read_errors_ignored shows that DMA read errors have no effect."
  },
  {
   "property": "C65",
   "status": "proved",
   "theorems": [
    "C65_enumerates",
    "C65_config",
    "C65_completions",
    "C65_memory",
    "C65_io",
    "C65_host_memory",
    "C65_only",
    "C65_messages_refuted",
    "C65_end_refuted"
   ],
   "note": "Links have no delay and every port is connected; capabilities, payload size and MSI set up during enumeration are left out (C02). Two defects refuted: ID routed messages, and the limit of the host bridge's windows."
  },
  {
   "property": "C66",
   "status": "proved",
   "theorems": [
    "C66_receive",
    "C66_descriptors",
    "C66_writes",
    "C66_completions",
    "C66_status",
    "C66_tag_reuse",
    "C66_buffers",
    "C66_progress",
    "C66_ready",
    "C66_all_written_refuted",
    "C66_overwrite_refuted",
    "C66_checksum_order_refuted",
    "C66_length_refuted",
    "C66_empty_refuted",
    "C66_mtu_refuted",
    "C66_early_report_refuted"
   ],
   "note": "All of rx_engine.v except the queue map inside it (C48). The surroundings are constrained to answer only what was asked (lawful); examples show runs that meet it. The buffer and readiness claims are for an MTU that does not change. Refuted claims document defects: completion and buffer release after the first write of several, early write report, checksum passed to the next packet, completion length, empty descriptors, MTU raised in flight."
  },
  {
   "property": "C67",
   "status": "proved",
   "theorems": [
    "C67_lock",
    "C67_lost_only",
    "C67_kept",
    "C67_lost",
    "C67_lost_31",
    "C67_pulse",
    "C67_slip_again",
    "C67_acquire"
   ],
   "note": "Block synchronisation (Eth/FrameSync_*), for any pulse and pause length; the bitslip counter is a plain number because only values below the two lengths are put in it. The transceiver is any function of bits slipped, time and time since the last slip."
  },
  {
   "property": "C68",
   "status": "proved",
   "theorems": [
    "C68_alarm",
    "C68_raised",
    "C68_fifteen_refuted",
    "C68_power_of_two_refuted"
   ],
   "note": "Bit error rate monitor (Eth/BerMon_*). COUNT_125US is a whole number in the model (a real in the source). The theorems ending in _refuted are defects of the code."
  },
  {
   "property": "C69",
   "status": "proved",
   "theorems": [
    "C69_reset_only",
    "C69_reset_if",
    "C69_up",
    "C69_down_only",
    "C69_down",
    "C69_sixteenth_refuted",
    "C69_no_lock_refuted",
    "C69_power_of_two_refuted"
   ],
   "note": "Receive watchdog (Eth/Watchdog_*), windows counted from a reset; COUNT_125US is a whole number in the model, and the request register is cleared with the clock (asynchronously in the source). The theorems ending in _refuted are defects of the code."
  }
 ]
}