-Q theories Verif
theories/Base/Prelude.v
theories/Base/Bits.v
theories/Rtl/OpTable_model.v
theories/Rtl/Qm_model.v
theories/Driver/Resource_model.v
theories/Driver/Resource_spec.v
theories/Driver/Resource_proof.v
theories/Driver/Resource_props.v
theories/Driver/RegBlock_model.v
theories/Driver/RegBlock_spec.v
theories/Driver/RegBlock_proof.v
theories/Driver/RegBlock_props.v
theories/Driver/Ring_model.v
theories/Driver/Ring_spec.v
theories/Driver/Ring_cq_proof.v
theories/Driver/Ring_proof.v
theories/Driver/Ring_props.v
theories/Rtl/OpTable_spec.v
theories/Rtl/OpTable_proof.v
theories/Rtl/Pipe_proof.v
theories/Rtl/Handshake_spec.v
theories/Rtl/Handshake_proof.v
theories/Rtl/Qm_spec.v
theories/Rtl/Qm_proof.v
theories/Rtl/Qm_hist_proof.v
theories/Rtl/Qm_live_proof.v
theories/Rtl/Qm_top_proof.v
theories/Rtl/Qm_props.v
theories/Rtl/Cqm_model.v
theories/Rtl/Cqm_spec.v
theories/Rtl/Cqm_proof.v
theories/Rtl/Cqm_hist_proof.v
theories/Rtl/Cqm_live_proof.v
theories/Rtl/Cqm_top_proof.v
theories/Rtl/Cqm_props.v
theories/Pcie/Tlp_model.v
theories/Pcie/Tlp_spec.v
theories/Pcie/Tlp_proof.v
theories/Pcie/Tlp_props.v
theories/Pcie/Mem_model.v
theories/Pcie/Mem_spec.v
theories/Pcie/Mem_proof.v
theories/Pcie/Host_proof.v
theories/Pcie/Mem_props.v
theories/Pcie/Cap_model.v
theories/Pcie/Cap_spec.v
theories/Pcie/Cap_proof.v
theories/Pcie/Cap_props.v
theories/Base/Masks.v
theories/Pcie/Bar_model.v
theories/Pcie/Bar_spec.v
theories/Pcie/Bar_proof.v
theories/Pcie/Bar_run.v
theories/Pcie/Bar_props.v
theories/Pcie/Tree_model.v
theories/Pcie/Tree_spec.v
theories/Pcie/Tree_regs_proof.v
theories/Pcie/Tree_sim_proof.v
theories/Pcie/Tree_proof.v
theories/Pcie/Tree_route_proof.v
theories/Pcie/Tree_final_proof.v
theories/Pcie/Tree_props.v
theories/Stream/Axis_model.v
theories/Stream/Axis_spec.v
theories/Stream/Axis_proof.v
theories/Stream/Axis_props.v
theories/Stream/Arb_model.v
theories/Stream/Arb_spec.v
theories/Stream/Arb_proof.v
theories/Stream/Arb_props.v
theories/Stream/Mux_model.v
theories/Stream/Mux_spec.v
theories/Stream/Mux_proof.v
theories/Stream/Mux_props.v
theories/Stream/Fifo_model.v
theories/Stream/Fifo_spec.v
theories/Stream/Fifo_ring.v
theories/Stream/Fifo_proof.v
theories/Stream/Fifo_hist_proof.v
theories/Stream/Fifo_live_proof.v
theories/Stream/Fifo_frame_proof.v
theories/Stream/Fifo_gap_proof.v
theories/Stream/Fifo_mark_proof.v
theories/Stream/Fifo_props.v
theories/Net/Codec_model.v
theories/Net/Codec_spec.v
theories/Net/Codec_proof.v
theories/Net/Codec_ip_proof.v
theories/Net/Codec_udp_proof.v
theories/Net/Codec_props.v
theories/Tools/Build_model.v
theories/Tools/Build_spec.v
theories/Tools/Build_proof.v
theories/Tools/Build_props.v
theories/Driver/Irq_model.v
theories/Driver/Irq_spec.v
theories/Driver/Irq_proof.v
theories/Driver/Irq_props.v
theories/Driver/Close_model.v
theories/Driver/Close_spec.v
theories/Driver/Close_proof.v
theories/Driver/Close_props.v
theories/Eth/Lfsr_model.v
theories/Eth/Lfsr_spec.v
theories/Eth/Lfsr_proof.v
theories/Eth/Lfsr_words_proof.v
theories/Eth/Lfsr_props.v
theories/Eth/Phy_model.v
theories/Eth/Phy_spec.v
theories/Eth/Phy_proof.v
theories/Eth/Prbs_proof.v
theories/Eth/Phy_props.v
theories/Eth/FrameSync_model.v
theories/Eth/FrameSync_spec.v
theories/Eth/FrameSync_proof.v
theories/Eth/FrameSync_props.v
theories/Eth/BerMon_model.v
theories/Eth/BerMon_spec.v
theories/Eth/BerMon_proof.v
theories/Eth/BerMon_props.v
theories/Eth/Watchdog_model.v
theories/Eth/Watchdog_spec.v
theories/Eth/Watchdog_proof.v
theories/Eth/Watchdog_props.v
theories/Eth/Baser_model.v
theories/Eth/Baser_spec.v
theories/Eth/Baser_proof.v
theories/Eth/Baser_stream_proof.v
theories/Eth/Baser_block_proof.v
theories/Eth/Baser_props.v
theories/Nic/RxCsum_model.v
theories/Nic/RxCsum_spec.v
theories/Nic/RxCsum_proof.v
theories/Nic/RxCsum_props.v
theories/Nic/RxHash_model.v
theories/Nic/RxHash_spec.v
theories/Nic/RxHash_proof.v
theories/Nic/RxHash_stream_proof.v
theories/Nic/RxHash_props.v
theories/Utils/Timespec_model.v
theories/Utils/Timespec_spec.v
theories/Utils/Timespec_proof.v
theories/Utils/Timespec_more_proof.v
theories/Utils/Timespec_props.v
theories/Nic/RxMap_model.v
theories/Nic/RxMap_spec.v
theories/Nic/RxMap_proof.v
theories/Nic/RxMap_props.v
theories/Nic/StatsCounter_model.v
theories/Nic/StatsCounter_spec.v
theories/Nic/StatsCounter_proof.v
theories/Nic/StatsCounter_props.v
theories/Nic/StatsCollect_model.v
theories/Nic/StatsCollect_spec.v
theories/Nic/StatsCollect_proof.v
theories/Nic/StatsCollect_props.v
theories/Ptp/Clock_model.v
theories/Ptp/Clock_spec.v
theories/Ptp/Clock_proof.v
theories/Ptp/Clock_props.v
theories/Sched/Rr_model.v
theories/Sched/Rr_spec.v
theories/Sched/FifoUse_proof.v
theories/Sched/Rr_proof.v
theories/Sched/RrFair_proof.v
theories/Sched/Rr_props.v
theories/Sched/RrOwe_spec.v
theories/Sched/RrOwe_proof.v
theories/Sched/RrGhost_proof.v
theories/Sched/RrOwe_props.v
theories/Stream/Cobs_model.v
theories/Stream/Cobs_spec.v
theories/Stream/CobsDec_proof.v
theories/Stream/CobsFifo_proof.v
theories/Stream/CobsEnc_proof.v
theories/Stream/Cobs_proof.v
theories/Stream/Cobs_props.v
theories/Stream/Plain_proof.v
theories/Nic/TxCsum_model.v
theories/Nic/TxCsum_spec.v
theories/Nic/TxCsumSum_proof.v
theories/Nic/TxCsum_proof.v
theories/Nic/TxCsumRun_proof.v
theories/Nic/TxCsumLive_proof.v
theories/Nic/TxCsum_props.v
theories/Nic/TxEngine_model.v
theories/Nic/TxEngine_spec.v
theories/Nic/TxEngine_check.v
theories/Nic/TxEngine_proof.v
theories/Nic/TxEngine_live_proof.v
theories/Nic/TxEngine_reads_proof.v
theories/Nic/TxEngine_props.v
theories/Nic/CplWrite_model.v
theories/Nic/CplWrite_spec.v
theories/Nic/CplWrite_check.v
theories/Nic/CplWrite_proof.v
theories/Nic/CplWrite_data_proof.v
theories/Nic/CplWrite_live_proof.v
theories/Nic/CplWrite_props.v
theories/Nic/DescFetch_model.v
theories/Nic/DescFetch_spec.v
theories/Nic/DescFetch_check.v
theories/Nic/DescFetch_proof.v
theories/Nic/DescFetch_live_proof.v
theories/Nic/DescFetch_props.v
theories/Nic/RxEngine_model.v
theories/Nic/RxEngine_spec.v
theories/Nic/RxEngine_check.v
theories/Nic/RxEngine_proof.v
theories/Nic/RxEngine_live_proof.v
theories/Nic/RxEngine_buf_proof.v
theories/Nic/RxEngine_props.v
