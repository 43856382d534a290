{
 "claims": [
  {
   "property": "C01",
   "status": "proved",
   "theorems": [
    "C01_pipe_valid_lossless"
   ],
   "note": "(theories/Pipe_props.v)"
  },
  {
   "property": "C02",
   "status": "proved",
   "theorems": [
    "C02_pipe_valid_stable",
    "C02_pipe_valid_throughput",
    "C02_pipe_valid_latency"
   ],
   "note": "(theories/Pipe_props.v)"
  },
  {
   "property": "C03",
   "status": "proved",
   "theorems": [
    "C03_pipe_ready_lossless",
    "C03_pipe_ready_cuts_ready_path",
    "C03_pipe_ready_zero_latency",
    "C03_pipe_ready_stable"
   ],
   "note": "(theories/Pipe_props.v)"
  },
  {
   "property": "C04",
   "status": "proved",
   "theorems": [
    "C04_up_converter_packs",
    "C04_up_converter_remainder",
    "C04_up_converter_stable",
    "C04_up_converter_flow"
   ],
   "note": "(theories/Converter_props.v)"
  },
  {
   "property": "C05",
   "status": "proved",
   "theorems": [
    "C05_down_converter_slices",
    "C05_down_converter_progress",
    "C05_down_converter_stable"
   ],
   "note": "(theories/Converter_props.v)"
  },
  {
   "property": "C06",
   "status": "proved",
   "theorems": [
    "C06_down_up_roundtrip",
    "C06_up_down_roundtrip_data",
    "C06_up_down_roundtrip_marks"
   ],
   "note": "(theories/Converter_props.v)"
  },
  {
   "property": "C07",
   "status": "proved",
   "theorems": [
    "C07_converter_error_iff_not_divisible",
    "C07_converter_ratio_exact",
    "C07_converter_kinds",
    "C07_identity_converter"
   ],
   "note": "(theories/Converter_props.v)"
  },
  {
   "property": "C08",
   "status": "proved",
   "theorems": [
    "C08_stitcher_exact",
    "C08_stitcher_packet_count"
   ],
   "note": "(theories/Utils_props.v)"
  },
  {
   "property": "C09",
   "status": "proved",
   "theorems": [
    "C09_splitter_exactly_once",
    "C09_splitter_cycle"
   ],
   "note": "(theories/Utils_props.v)"
  },
  {
   "property": "C10",
   "status": "proved",
   "theorems": [
    "C10_merger_zips",
    "C10_merger_lockstep",
    "C10_merger_stable",
    "C10_merger_progress"
   ],
   "note": "(theories/Utils_props.v)"
  },
  {
   "property": "C11",
   "status": "proved",
   "theorems": [
    "C11_last_inserter_exact",
    "C11_last_inserter_bound",
    "C11_last_inserter_wraps"
   ],
   "note": "(theories/Utils_props.v)"
  },
  {
   "property": "C12",
   "status": "proved",
   "theorems": [
    "C12_last_on_timeout_lossless",
    "C12_last_on_timeout_ready"
   ],
   "note": "(theories/Utils_props.v)"
  },
  {
   "property": "C13",
   "status": "proved",
   "theorems": [
    "C13_last_only_on_last_or_timeout",
    "C13_flush_on_timeout"
   ],
   "note": "(theories/Utils_props.v)"
  },
  {
   "property": "C14",
   "status": "partial",
   "theorems": [
    "C14_last_on_timeout_stable_refuted",
    "C14_last_on_timeout_stable_partial"
   ],
   "note": "False as stated: after the timeout expired, a stalled beat is offered with last and the arrival of the next word withdraws last (C14_last_on_timeout_stable_refuted). Proved: valid, data, first are stable, and last is unless that happens. (theories/Utils_props.v)"
  },
  {
   "property": "C15",
   "status": "proved",
   "theorems": [
    "C15_round_robin_nearest",
    "C15_round_robin_fair"
   ],
   "note": "(theories/Utils_props.v)"
  },
  {
   "property": "C16",
   "status": "proved",
   "theorems": [
    "C16_arbiter_no_interleave"
   ],
   "note": "(theories/Utils_props.v)"
  },
  {
   "property": "C17",
   "status": "proved",
   "theorems": [
    "C17_arbiter_cycle",
    "C17_arbiter_lossless"
   ],
   "note": "(theories/Utils_props.v)"
  },
  {
   "property": "C18",
   "status": "proved",
   "theorems": [
    "C18_arbiter_bounded_wait",
    "C18_arbiter_handover",
    "C18_arbiter_stall_out",
    "C18_one_sink"
   ],
   "note": "(theories/Utils_props.v)"
  },
  {
   "property": "C19",
   "status": "proved",
   "theorems": [
    "C19_fifo_packing_injective",
    "C19_sync_fifo_lossless",
    "C19_sync_fifo_stable",
    "C19_sync_fifo_handshake",
    "C19_sync_fifo_buffered_handshake",
    "C19_async_fifo_lossless",
    "C19_async_fifo_depth",
    "C19_async_fifo_flow"
   ],
   "note": "(theories/Fifo_props.v)"
  },
  {
   "property": "C20",
   "status": "proved",
   "theorems": [
    "C20_wait_timer_exact"
   ],
   "note": "(theories/Timer_props.v)"
  },
  {
   "property": "C21",
   "status": "proved",
   "theorems": [
    "C21_wait_n_timer_exact",
    "C21_wait_n_timer_idle"
   ],
   "note": "(theories/Timer_props.v)"
  },
  {
   "property": "C22",
   "status": "proved",
   "theorems": [
    "C22_pulse_clock_rate",
    "C22_pulse_clock_rate_after_rst",
    "C22_pulse_clock_no_drift",
    "C22_pulse_clock_frequency"
   ],
   "note": "(theories/Timer_props.v)"
  },
  {
   "property": "C23",
   "status": "partial",
   "theorems": [
    "C23_pulse_width_without_rst_partial",
    "C23_pulse_width_around_rst_partial",
    "C23_pulse_width_refuted"
   ],
   "note": "False as stated: while rst is held a pulse stays high (C23_pulse_width_refuted). Proved: one cycle for histories without rst, and in general one cycle whenever rst is low in it, the output being frozen while rst is held (C23_pulse_width_around_rst_partial). (theories/Timer_props.v)"
  },
  {
   "property": "C24",
   "status": "proved",
   "theorems": [
    "C24_tuning_clock_rate",
    "C24_tuning_clock_frequency"
   ],
   "note": "(theories/Timer_props.v)"
  },
  {
   "property": "C25",
   "status": "proved",
   "theorems": [
    "C25_blink_keep_exact",
    "C25_blink_keep_full_duty",
    "C25_blink_domain_period"
   ],
   "note": "(theories/Timer_props.v)"
  },
  {
   "property": "C26",
   "status": "proved",
   "theorems": [
    "C26_ws2812b_plays_waveforms",
    "C26_ws2812b_pixel",
    "C26_ws2812b_timings"
   ],
   "note": "(theories/Led_props.v)"
  },
  {
   "property": "C27",
   "status": "proved",
   "theorems": [
    "C27_read_back",
    "C27_sink_ready",
    "C27_read_back_exact"
   ],
   "note": "(theories/Mem_props.v)"
  },
  {
   "property": "C28",
   "status": "partial",
   "theorems": [
    "C28_stops_after_packet_partial",
    "C28_full_memory_repeats",
    "C28_stops_after_packet_refuted"
   ],
   "note": "False as stated: with every word of a power-of-two memory written the read address wraps and the packet is repeated for ever (C28_full_memory_repeats, C28_stops_after_packet_refuted). Proved for every other case. (theories/Mem_props.v)"
  },
  {
   "property": "C29",
   "status": "partial",
   "theorems": [
    "C29_read_while_writing_refuted",
    "C29_read_while_writing_partial",
    "C29_offered_partial",
    "C29_buffered_partial"
   ],
   "note": "False as stated: a word read in the cycle directly after a write is stale (C29_read_while_writing_refuted). C29_offered_partial says exactly what is offered in every history: the word stored at its position before the preceding cycle, except directly after an accepted write, when it is the word at position 0; C29_buffered_partial carries it to the buffered stream. (theories/Mem_props.v)"
  },
  {
   "property": "C30",
   "status": "proved",
   "theorems": [
    "C30_reader_replays",
    "C30_reader_exact"
   ],
   "note": "(theories/Mem_props.v)"
  },
  {
   "property": "C31",
   "status": "partial",
   "theorems": [
    "C31_int2float_truncates_partial",
    "C31_rounding_is_unique",
    "C31_int2float_exact",
    "C31_int2float_truncates_refuted"
   ],
   "note": "False for the single input INT_MIN = -2^31, delivered as minus zero (C31_int2float_truncates_refuted). Proved for every other input. (theories/Math_props.v)"
  },
  {
   "property": "C32",
   "status": "proved",
   "theorems": [
    "C32_int2float_lossless",
    "C32_int2float_stable",
    "C32_int2float_ready",
    "C32_int2float_latency"
   ],
   "note": "(theories/Math_props.v)"
  },
  {
   "property": "C33",
   "status": "proved",
   "theorems": [
    "C33_clz_counts",
    "C33_clz_zero"
   ],
   "note": "(theories/Math_props.v)"
  },
  {
   "property": "C34",
   "status": "proved",
   "theorems": [
    "C34_multiplier_exact",
    "C34_multiplier_stable",
    "C34_multiplier_ready"
   ],
   "note": "(theories/Math_props.v)"
  },
  {
   "property": "C35",
   "status": "proved",
   "theorems": [
    "C35_iir_difference_equation",
    "C35_iir_stable",
    "C35_iir_ready",
    "C35_iir_latency"
   ],
   "note": "(theories/Iir_props.v)"
  },
  {
   "property": "C36",
   "status": "proved",
   "theorems": [
    "C36_stream_regs_contents",
    "C36_stream_regs_strobe",
    "C36_register_value_unique"
   ],
   "note": "(theories/Regs_props.v)"
  },
  {
   "property": "C37",
   "status": "proved",
   "theorems": [
    "C37_i2c_reg_stream",
    "C37_i2c_reg_stream_stable"
   ],
   "note": "(theories/I2creg_props.v)"
  },
  {
   "property": "C38",
   "status": "proved",
   "theorems": [
    "C38_tca9548a_packets",
    "C38_tca9548a_stable",
    "C38_tca9548a_done"
   ],
   "note": "(theories/I2creg_props.v)"
  },
  {
   "property": "C39",
   "status": "proved",
   "theorems": [
    "C39_framing",
    "C39_no_error",
    "C39_stable"
   ],
   "note": "(theories/Lcd_props.v)"
  },
  {
   "property": "C40",
   "status": "proved",
   "theorems": [
    "C40_address",
    "C40_dropped"
   ],
   "note": "(theories/Lcd_props.v)"
  },
  {
   "property": "C41",
   "status": "proved",
   "theorems": [
    "C41_sequence",
    "C41_ready",
    "C41_i2c"
   ],
   "note": "(theories/Lcd_props.v)"
  },
  {
   "property": "C42",
   "status": "proved",
   "theorems": [
    "C42_sda_changes"
   ],
   "note": "(theories/I2c_props.v)"
  },
  {
   "property": "C43",
   "status": "proved",
   "theorems": [
    "C43_write"
   ],
   "note": "(theories/I2c_props.v)"
  },
  {
   "property": "C44",
   "status": "proved",
   "theorems": [
    "C44_read"
   ],
   "note": "(theories/I2c_props.v)"
  },
  {
   "property": "C45",
   "status": "proved",
   "theorems": [
    "C45_finishes",
    "C45_busy_low",
    "C45_short_period_hangs"
   ],
   "note": "(theories/I2c_props.v)"
  },
  {
   "property": "C46",
   "status": "partial",
   "theorems": [
    "C46_ignored_refuted",
    "C46_ignored_partial",
    "C46_taken"
   ],
   "note": "False as stated: busy resets to 1 and stays high for the last cycle of each command while the FSM is already in IDLE, so a strobe there is obeyed (C46_ignored_refuted). Proved: whenever busy would stay high without a strobe, strobes and operands have no effect on anything that follows, and when busy is low a strobe is obeyed by priority. (theories/I2c_props.v)"
  },
  {
   "property": "C47",
   "status": "proved",
   "theorems": [
    "C47_commands",
    "C47_write_on_bus",
    "C47_error_only_on_write",
    "C47_start_offered"
   ],
   "note": "(theories/I2cstream_props.v)"
  },
  {
   "property": "C48",
   "status": "proved",
   "theorems": [
    "C48_one_word_per_read",
    "C48_read_on_bus",
    "C48_stable",
    "C48_not_first"
   ],
   "note": "(theories/I2cstream_props.v)"
  },
  {
   "property": "C49",
   "status": "proved",
   "theorems": [
    "C49_transactions",
    "C49_bus",
    "C49_outcome"
   ],
   "note": "(theories/I2cwriter_props.v)"
  },
  {
   "property": "C50",
   "status": "partial",
   "theorems": [
    "C50_retry_refuted",
    "C50_retry_partial"
   ],
   "note": "False as stated: in IDLE the stage counter still holds the value of the refused byte plus one, so cached bytes do not count and the retry waits for a further byte on the sink (C50_retry_refuted: with nothing more on the sink no command is ever issued). Proved: once a byte is offered the next transaction starts within three cycles, and by C49 it resends the refused triple. (theories/I2cwriter_props.v)"
  },
  {
   "property": "C51",
   "status": "proved",
   "theorems": [
    "C51_exchanges",
    "C51_bus",
    "C51_bus_stable",
    "C51_write"
   ],
   "note": "(theories/I2cproto_props.v)"
  },
  {
   "property": "C52",
   "status": "proved",
   "theorems": [
    "C52_read"
   ],
   "note": "(theories/I2cproto_props.v)"
  },
  {
   "property": "C53",
   "status": "partial",
   "theorems": [
    "C53_gaps_refuted",
    "C53_queue_refuted",
    "C53_gaps_partial"
   ],
   "note": "False of the code: a gap before a data byte makes the core write whatever the data lines hold (C53_gaps_refuted), and bytes queued behind a refused read are thrown away (C53_queue_refuted). Partial: gaps between requests, gaps inside a request up to the moment its address has been answered, and back-pressure are harmless. (theories/I2cproto_props.v)"
  },
  {
   "property": "C54",
   "status": "proved",
   "theorems": [
    "C54_write",
    "C54_write_raises",
    "C54_write_result",
    "C54_read",
    "C54_read_result",
    "C54_read_raises",
    "C54_silent",
    "C54_discover"
   ],
   "note": "(theories/I2cbus_props.v)"
  },
  {
   "property": "C55",
   "status": "proved",
   "theorems": [
    "C55_received",
    "C55_delivered",
    "C55_no_overrun"
   ],
   "note": "(theories/Spislave_props.v)"
  },
  {
   "property": "C56",
   "status": "partial",
   "theorems": [
    "C56_refuted",
    "C56_cut_frame_partial",
    "C56_single_stage_partial"
   ],
   "note": "C56_refuted: the stage index is only reset when chip select is released in the middle of a word; after a frame that ended exactly on a word boundary the next frame starts with the stage where the previous one stopped (stages [8,16]: an 8-bit frame, then a 16-bit frame comes out as one 16-bit word). C56_cut_frame_partial: it does restart when chip select cut a word; C56_single_stage_partial: with one stage the property holds. (theories/Spislave_props.v)"
  },
  {
   "property": "C57",
   "status": "proved",
   "theorems": [
    "C57_clock",
    "C57_strobes"
   ],
   "note": "(theories/Spiclk_props.v)"
  },
  {
   "property": "C58",
   "status": "partial",
   "theorems": [
    "C58_refuted",
    "C58_clock_partial",
    "C58_cs_delay"
   ],
   "note": "C58_refuted: the divider register is 8 bits wide and silently truncates, so a 100 MHz system asking for a 100 kHz SPI clock gets about 204.9 kHz. C58_clock_partial: whenever the needed divider fits, i.e. sys <= 512 * requested (capped) frequency, the SPI clock never exceeds the requested frequency and is the fastest such even division. (theories/Spiclk_props.v)"
  },
  {
   "property": "C59",
   "status": "proved",
   "theorems": [
    "C59_transfers",
    "C59_fifo_ready",
    "C59_delivered",
    "C59_chip_select"
   ],
   "note": "(theories/Spimaster_props.v)"
  },
  {
   "property": "C60",
   "status": "proved",
   "theorems": [
    "C60_words",
    "C60_cs_transfers",
    "C60_cs_low",
    "C60_packets_apart",
    "C60_cs_edges"
   ],
   "note": "(theories/Spistream_props.v)"
  },
  {
   "property": "C61",
   "status": "proved",
   "theorems": [
    "C61_bursts",
    "C61_read_data",
    "C61_handshake"
   ],
   "note": "(theories/Spibridge_props.v)"
  },
  {
   "property": "C62",
   "status": "proved",
   "theorems": [
    "C62_splitter"
   ],
   "note": "(theories/Ulpi_props.v)"
  },
  {
   "property": "C63",
   "status": "proved",
   "theorems": [
    "C63_tags",
    "C63_stable"
   ],
   "note": "(theories/Ulpi_props.v)"
  },
  {
   "property": "C64",
   "status": "proved",
   "theorems": [
    "C64_por",
    "C64_times"
   ],
   "note": "(theories/Ulpi_props.v)"
  },
  {
   "property": "C65",
   "status": "proved",
   "theorems": [
    "C65_dump",
    "C65_held",
    "C65_command",
    "C65_output"
   ],
   "note": "(theories/Ulpi_props.v)"
  },
  {
   "property": "C66",
   "status": "partial",
   "theorems": [
    "C66_ecp5_partial",
    "C66_ecp5_floats",
    "C66_vco_refuted"
   ],
   "note": "With the program's binary64 floats. Proved: success, exact legality, exactly minimal output error over all legal settings, and exactly minimal VCO distance when the output frequency can be met exactly; the full lexicographic minimum and the tie rule hold for the computed (rounded) frequencies. Refuted for the exact ones: 67 MHz from 10 MHz takes a VCO 66.7 MHz off although 600 MHz gives the same output (C66_vco_refuted). (theories/Pll_props.v)"
  },
  {
   "property": "C67",
   "status": "partial",
   "theorems": [
    "C67_xilinx_partial",
    "C67_xilinx_floats",
    "C67_vco_refuted"
   ],
   "note": "With the program's binary64 floats. Proved: success, legality, output error minimal up to 2e-6 Hz; exact lexicographic minimum and tie rule when the output frequency can be met exactly; both for the computed (rounded) frequencies otherwise. Refuted for the exact ones: 91 MHz from 44 MHz (C67_vco_refuted). (theories/Pll_props.v)"
  },
  {
   "property": "C68",
   "status": "proved",
   "theorems": [
    "C68_ecp5_freeze",
    "C68_xilinx_freeze",
    "C68_outputs",
    "C68_accepts"
   ],
   "note": "(theories/Pll_props.v)"
  },
  {
   "property": "C69",
   "status": "partial",
   "theorems": [
    "C69_ecp5",
    "C69_xilinx_refuted",
    "C69_xilinx_partial"
   ],
   "note": "Proved for the ECP5 and for the primary 7-series dividers. Refuted for 7-series secondary outputs: div = vco/freq is neither whole nor at most 128 in general (C69_xilinx_refuted). (theories/Pll_props.v)"
  },
  {
   "property": "C70",
   "status": "partial",
   "theorems": [
    "C70_wave_partial",
    "C70_locked_partial",
    "C70_live_partial",
    "C70_width",
    "C70_refuted",
    "C70_wrap_refuted"
   ],
   "note": "Refuted in general: changing taps during a pulse leaves the line one tap off for good (C70_refuted), lowering it during the move adds 128 pulses (C70_wrap_refuted). Proved with taps held since the load cycle: the exact waveform, exactly taps pulses when locked, and from any history lock within 257 cycles. (theories/Delay_props.v)"
  },
  {
   "property": "C71",
   "status": "proved",
   "theorems": [
    "C71_delivered",
    "C71_held",
    "C71_prompt",
    "C71_transmit",
    "C71_tx_stream"
   ],
   "note": "(theories/Serial_props.v)"
  },
  {
   "property": "C72",
   "status": "proved",
   "theorems": [
    "C72_prefix",
    "C72_ends",
    "C72_held",
    "C72_progress",
    "C72_throttled",
    "C72_delay"
   ],
   "note": "(theories/Sim_props.v)"
  },
  {
   "property": "C73",
   "status": "proved",
   "theorems": [
    "C73_recorded",
    "C73_overrun",
    "C73_ready",
    "C73_delay"
   ],
   "note": "(theories/Sim_props.v)"
  },
  {
   "property": "C74",
   "status": "proved",
   "theorems": [
    "C74_rejects",
    "C74_keeps"
   ],
   "note": "(theories/Layout_props.v)"
  },
  {
   "property": "C75",
   "status": "proved",
   "theorems": [
    "C75_splitter",
    "C75_merger"
   ],
   "note": "(theories/Layout_props.v)"
  },
  {
   "property": "C76",
   "status": "proved",
   "theorems": [
    "C76_litex_stream_regs",
    "C76_reverse_bytes",
    "C76_regs_stream_offer",
    "C76_regs_stream_lossless",
    "C76_regs_stream_never_full",
    "C76_regs_stream_writes",
    "C76_regs_stream_delivers"
   ],
   "note": "(theories/Regs_props.v)"
  },
  {
   "property": "C77",
   "status": "proved",
   "theorems": [
    "C77_order",
    "C77_done",
    "C77_transactions"
   ],
   "note": "(theories/I2cinit_props.v)"
  },
  {
   "property": "C78",
   "status": "proved",
   "theorems": [
    "C78_bus"
   ],
   "note": "(theories/Ulpi_props.v)"
  },
  {
   "property": "C79",
   "status": "proved",
   "theorems": [
    "C79_init_first",
    "C79_bus",
    "C79_reset",
    "C79_offers"
   ],
   "note": "(theories/Ulpi_props.v)"
  },
  {
   "property": "C80",
   "status": "proved",
   "theorems": [
    "C80_lines",
    "C80_all_bytes",
    "C80_header"
   ],
   "note": "(theories/Hexdump_props.v)"
  },
  {
   "property": "C81",
   "status": "proved",
   "theorems": [
    "C81_exclusive",
    "C81_turnaround",
    "C81_listen"
   ],
   "note": "(theories/Serial_props.v)"
  },
  {
   "property": "C82",
   "status": "partial",
   "theorems": [
    "C82_short_group_zero_padded_refuted",
    "C82_first_short_group_partial",
    "C82_unused_lanes_partial"
   ],
   "note": "False as stated: lanes of a short group keep values of the previous word (C82_short_group_zero_padded_refuted). Proved: exactly that, for every history: unused lanes are those of the word before, zero if there is none (C82_unused_lanes_partial). (theories/Converter_props.v)"
  },
  {
   "property": "C83",
   "status": "partial",
   "theorems": [
    "C83_arbiter_source_stable_refuted",
    "C83_arbiter_source_stable_partial"
   ],
   "note": "False as stated: a stall time-out that coincides with the granted sink coming back withdraws the offered beat (C83_arbiter_source_stable_refuted). Proved otherwise. (theories/Utils_props.v)"
  },
  {
   "property": "C84",
   "status": "partial",
   "theorems": [
    "C84_refused_beat_not_stored_refuted",
    "C84_refused_beat_after_write_partial",
    "C84_other_words_partial"
   ],
   "note": "False as stated: the write enable ignores rewind (C84_refused_beat_not_stored_refuted). Proved for a beat offered in the single cycle that ends a write phase of fewer than depth words, and C84_other_words_partial proves that refused beats disturb at most the first word read back. (theories/Mem_props.v)"
  },
  {
   "property": "C85",
   "status": "proved",
   "theorems": [
    "C85_start_stop",
    "C85_scl_seen_high"
   ],
   "note": "(theories/I2c_props.v)"
  },
  {
   "property": "C86",
   "status": "partial",
   "theorems": [
    "C86_done_sent_refuted",
    "C86_done_sent_partial"
   ],
   "note": "False of the code: done rises when the last byte is taken by the writer, and a refused last byte is only retried when another byte is offered, so the last register can be lost for ever with done high (C86_done_sent_refuted). Partial: with done high all entries but the last have been acknowledged. (theories/I2cinit_props.v)"
  },
  {
   "property": "C87",
   "status": "partial",
   "theorems": [
    "C87_zero_read_refuted",
    "C87_zero_read_partial",
    "C87_zero_read_ends_partial"
   ],
   "note": "False of the code: the length counter wraps, data bytes are read and returned (C87_zero_read_refuted). Proved: a refused read of 0 bytes is answered by status 1 alone, an accepted one by status 0 and 256 bytes read in a second transaction (C87_zero_read_partial), after which the bridge takes a new request. Reads of length >= 1 are C52. (theories/I2cproto_props.v)"
  },
  {
   "property": "C88",
   "status": "partial",
   "theorems": [
    "C88_byte_helpers_refuted",
    "C88_byte_helpers_partial"
   ],
   "note": "False of the code: write_byte_data drops the result, read_byte_data raises TypeError (C88_byte_helpers_refuted). Partial: an acknowledged read_byte_data returns the byte. (theories/I2cbus_props.v)"
  },
  {
   "property": "C89",
   "status": "partial",
   "theorems": [
    "C89_refuted",
    "C89_address_partial"
   ],
   "note": "False of the code: only the address state looks at i2c_error, a refused control or data byte is followed by the next data byte, which the I2C layer sends as an address (C89_refuted). Partial: after a refused address byte and after the last byte of a packet. (theories/Lcd_props.v)"
  },
  {
   "property": "C90",
   "status": "partial",
   "theorems": [
    "C90_refuted",
    "C90_between_frames_partial"
   ],
   "note": "False of the code: reset is only looked at in UNKNOWN and DISPLAY, a pulse in the middle of a frame is lost (C90_refuted). Partial: between frames. (theories/Lcd_props.v)"
  },
  {
   "property": "C91",
   "status": "partial",
   "theorems": [
    "C91_refuted",
    "C91_no_reset_partial"
   ],
   "note": "False of the code: reset during the addressing commands withdraws the byte being offered (C91_refuted). Partial: without reset after start-up. (theories/Lcd_props.v)"
  },
  {
   "property": "C92",
   "status": "partial",
   "theorems": [
    "C92_refuted",
    "C92_update_edges_partial",
    "C92_cpha1_partial",
    "C92_cpha0_partial",
    "C92_words_partial"
   ],
   "note": "C92_refuted: in the CPHA=0 modes the first bit only appears after the first update edge, so the master reads the word one bit late (the source has an 'XXX this seems bugged. shifted late' comment). C92_update_edges_partial: in every mode, after the k-th update edge following the acceptance of a word, the lines show its k-th most significant group of bits, and no other word is taken until the last. C92_cpha1_partial: in the CPHA=1 modes, with three still cycles before each sampling edge, the master reads the word correctly from the first sampling edge on. C92_cpha0_partial: in the CPHA=0 modes, under the same conditions, the word is read exactly one group of bits late, for every word, width and clock. C92_words_partial: for CPOL=CPHA and a slave that always has a word to send, the master's reads over a whole frame are one meaningless group followed by the words taken in the frame, without gaps. (theories/Spislave_props.v)"
  },
  {
   "property": "C93",
   "status": "partial",
   "theorems": [
    "C93_refuted",
    "C93_answered_partial"
   ],
   "note": "C93_refuted: a word whose len is not a multiple of its width makes the 8-bit bit counters step over 0; the master then clocks for ever, never answers and never accepts another word, for every continuation. C93_answered_partial: when the width divides the length (and len <= 256) every accepted word is answered within 512*(div+1)+3 cycles for every continuation. (theories/Spimaster_props.v)"
  },
  {
   "property": "C94",
   "status": "proved",
   "theorems": [
    "C94_received"
   ],
   "note": "(theories/Ulpi_props.v)"
  },
  {
   "property": "C95",
   "status": "proved",
   "theorems": [
    "C95_connect",
    "C95_held",
    "C95_progress"
   ],
   "note": "(theories/Sim_props.v)"
  },
  {
   "property": "C96",
   "status": "proved",
   "theorems": [
    "C96_verify"
   ],
   "note": "(theories/Sim_props.v)"
  },
  {
   "property": "C97",
   "status": "partial",
   "theorems": [
    "C97_refuted",
    "C97_bounds_partial",
    "C97_divides_refuted"
   ],
   "note": "Refuted: 100 MHz in/out with a 400 MHz secondary gives 600 MHz, and a 121 MHz secondary on a VCO of exactly 605 MHz gets 151.25 MHz because of float rounding (C97_divides_refuted). Proved, up to one part in 2^49: requested <= actual < 2 * requested; equal when the request divides the VCO frequency and the input divider divides the input frequency. (theories/Pll_props.v)"
  },
  {
   "property": "C98",
   "status": "partial",
   "theorems": [
    "C98_phase_partial",
    "C98_refuted"
   ],
   "note": "Refuted: 200 MHz in/out gives CPHASE 3/2. Proved up to 1e-12: the difference encodes the requested phase and the primary's is div/2. (theories/Pll_props.v)"
  },
  {
   "property": "C99",
   "status": "partial",
   "theorems": [
    "C99_refuted",
    "C99_secondary_partial"
   ],
   "note": "Refuted: a secondary output may claim the primary's domain. Proved: secondary domains are distinct. (theories/Pll_props.v)"
  },
  {
   "property": "C100",
   "status": "partial",
   "theorems": [
    "C100_position_partial",
    "C100_refuted"
   ],
   "note": "Refuted when taps has a nonzero reset value (position is reset + taps). Proved: position is del_value + taps, so taps for the default signal. (theories/Delay_props.v)"
  },
  {
   "property": "C101",
   "status": "proved",
   "theorems": [
    "C101_send",
    "C101_send_timeout"
   ],
   "note": "(theories/Bfm_props.v)"
  },
  {
   "property": "C102",
   "status": "proved",
   "theorems": [
    "C102_read",
    "C102_read_timeout"
   ],
   "note": "(theories/Bfm_props.v)"
  },
  {
   "property": "C103",
   "status": "proved",
   "theorems": [
    "C103_sync",
    "C103_async_out",
    "C103_async_in",
    "C103_activity"
   ],
   "note": "(theories/Usb_props.v)"
  },
  {
   "property": "C104",
   "status": "partial",
   "theorems": [
    "C104_endpoints_partial",
    "C104_limit_refuted",
    "C104_default_sizes"
   ],
   "note": "Proved for up to 15 pairs, the USB limit. Refuted beyond: 16 pairs are accepted and give endpoint number 16, 128 pairs give an address twice (C104_limit_refuted). (theories/Usb_props.v)"
  },
  {
   "property": "C105",
   "status": "partial",
   "theorems": [
    "C105_reset_partial",
    "C105_refuted"
   ],
   "note": "Refuted: the reset lasts 119 cycles, one short of 2 us. Proved: exactly the first 119 cycles, and the bus direction. (theories/Usb_props.v)"
  },
  {
   "property": "C106",
   "status": "proved",
   "theorems": [
    "C106_search",
    "C106_identifiers"
   ],
   "note": "(theories/Usb_props.v)"
  },
  {
   "property": "C107",
   "status": "partial",
   "theorems": [
    "C107_last_on_timeout_refuted",
    "C107_int2float_refuted",
    "C107_last_on_timeout_partial",
    "C107_int2float_partial"
   ],
   "note": "Refuted for both: source.first is never driven. Proved: no beat they deliver is ever marked first. (theories/First_props.v)"
  },
  {
   "property": "C108",
   "status": "proved",
   "theorems": [
    "C108_starts",
    "C108_byte_taken"
   ],
   "note": "(theories/Lcdlive_props.v)"
  },
  {
   "property": "C109",
   "status": "proved",
   "theorems": [
    "C109_accepts",
    "C109_read_offered",
    "C109_closes"
   ],
   "note": "(theories/I2clive_props.v)"
  },
  {
   "property": "C110",
   "status": "proved",
   "theorems": [
    "C110_never_stuck"
   ],
   "note": "(theories/I2clive_props.v)"
  },
  {
   "property": "C111",
   "status": "proved",
   "theorems": [
    "C111_writer_takes"
   ],
   "note": "(theories/I2clive_props.v)"
  },
  {
   "property": "C112",
   "status": "proved",
   "theorems": [
    "C112_init_completes"
   ],
   "note": "(theories/I2cinitlive_props.v)"
  },
  {
   "property": "C113",
   "status": "proved",
   "theorems": [
    "C113_data_holds",
    "C113_ack_holds"
   ],
   "note": "(theories/I2chold_props.v)"
  },
  {
   "property": "C114",
   "status": "proved",
   "theorems": [
    "C114_output_enable",
    "C114_accepts"
   ],
   "note": "(theories/Spilive_props.v)"
  },
  {
   "property": "C115",
   "status": "proved",
   "theorems": [
    "C115_difference_equation",
    "C115_ready",
    "C115_stable",
    "C115_operands_stable",
    "C115_bursts",
    "C115_offers",
    "C115_answers",
    "C115_internal"
   ],
   "note": "(theories/Iirx_props.v)"
  },
  {
   "property": "C116",
   "status": "proved",
   "theorems": [
    "C116_screen",
    "C116_sizes"
   ],
   "note": "(theories/Oled_props.v)"
  },
  {
   "property": "C117",
   "status": "proved",
   "theorems": [
    "C117_words",
    "C117_complete",
    "C117_delivered",
    "C117_frames",
    "C117_apart"
   ],
   "note": "(theories/Spilink_props.v)"
  },
  {
   "property": "C118",
   "status": "proved",
   "theorems": [
    "C118_recv_own_transfer",
    "C118_send_order",
    "C118_exchange"
   ],
   "note": "(theories/Usbep_props.v)"
  },
  {
   "property": "C119",
   "status": "partial",
   "theorems": [
    "C119_bytes_partial",
    "C119_sync_timeout_refuted",
    "C119_interrupted_refuted"
   ],
   "note": "False of the code: a synchronous recv that times out drops the bytes already received (C119_sync_timeout_refuted); after an interrupted asynchronous recv the next one returns the earlier transfer's bytes or loses them (C119_interrupted_refuted). Proved without these two situations. (theories/Usbep_props.v)"
  },
  {
   "property": "C120",
   "status": "partial",
   "theorems": [
    "C120_errors_refuted",
    "C120_sync_errors_partial"
   ],
   "note": "False of the code for asynchronous endpoints, whose transfer status is never looked at (C120_errors_refuted). Proved for synchronous ones. (theories/Usbep_props.v)"
  },
  {
   "property": "C121",
   "status": "proved",
   "theorems": [
    "C121_set_up_and_hold",
    "C121_scl_low_high",
    "C121_scl_period",
    "C121_never_too_fast",
    "C121_byte_time",
    "C121_exact_period",
    "C121_exact_byte_time",
    "C121_bridge"
   ],
   "note": "(theories/I2ctime_props.v)"
  },
  {
   "property": "C122",
   "status": "partial",
   "theorems": [
    "C122_carried",
    "C122_core",
    "C122_bridge_partial",
    "C122_refused_write_refuted",
    "C122_overrun_refuted"
   ],
   "note": "False of the code at the example's own rates: the data bytes of a refused write that are still on their way are taken for new requests and put on the bus (C122_refused_write_refuted), and a long write overruns the receiver (C122_overrun_refuted). Proved for a host that waits for its answers, reads at least one byte and sends the data of a write within 36 (period/4 + 1) cycles of its length byte. Transport without loss (C122_carried) is proved for every host. (theories/Bridge_props.v)"
  },
  {
   "property": "C123",
   "status": "proved",
   "theorems": [
    "C123_core",
    "C123_bridge"
   ],
   "note": "(theories/I2cend_props.v)"
  },
  {
   "property": "C124",
   "status": "partial",
   "theorems": [
    "C124_quotients",
    "C124_spi",
    "C124_ulpi",
    "C124_tuning_partial",
    "C124_tuning_exact_partial",
    "C124_tuning_refuted",
    "C124_ws2812b_partial",
    "C124_ws2812b_refuted",
    "C124_blink"
   ],
   "note": "With the program's binary64 floats. Proved exactly for the I2C period, UART divisor, SPI divider and chip-select delay, the ULPI and UTMI counts, the blink threshold, WS2812B T1H and TRST, T up to 2 GHz, T0H below 200 MHz, and tuning words when the system frequency is a multiple of 2^k and the target below 2^(21+k) Hz. Refuted: T0H is 58 instead of 59 cycles at 200 MHz (C124_ws2812b_refuted); a tuning word can be one too large (C124_tuning_refuted), never more (C124_tuning_partial). (theories/Timing_props.v)"
  },
  {
   "property": "C125",
   "status": "partial",
   "theorems": [
    "C125_registers_partial",
    "C125_registers_refuted",
    "C125_best_shift_refuted",
    "C125_best_shift_partial",
    "C125_accuracy"
   ],
   "note": "With the program's binary64 floats; log2 is only assumed accurate to a unit in the last place. Refuted without a limit on the coefficients: 2^60 wraps to the most negative value (C125_registers_refuted); proved below 2^32 (C125_registers_partial, C125_accuracy). Refuted: the shift is the best (one bit is lost for coefficients such as 1, -1.5); proved: it fits, and two bits more never fit (C125_best_shift_partial). (theories/Iircoef_props.v)"
  },
  {
   "property": "C126",
   "status": "proved",
   "theorems": [
    "C126_operations",
    "C126_host_writes"
   ],
   "note": "Proved. C126_operations is for every waveform and any stages, given that the FIFO has room when a word is pushed; C126_host_writes starts from the words handed to the host model of C117 and needs no such hypothesis: room follows from the acknowledgement limit (C55_no_overrun). (theories/Spiwb_props.v)"
  },
  {
   "property": "C127",
   "status": "partial",
   "theorems": [
    "C127_reads_then_commands_refuted",
    "C127_read_answer_partial"
   ],
   "note": "Refuted as a whole: the dummy words stay in the slave's FIFO during the read and are parsed as commands after it, so a write that follows a read is not carried out (C127_reads_then_commands_refuted). Proved: the word read is loaded into the slave in the cycle the bus acknowledges and shifted out on the following update edges, and no further word is read before it is out (C127_read_answer_partial). (theories/Spiwb_props.v)"
  },
  {
   "property": "C128",
   "status": "proved",
   "theorems": [
    "C128_bytes",
    "C128_packets"
   ],
   "note": "(theories/Ulpirx_props.v)"
  },
  {
   "property": "C129",
   "status": "partial",
   "theorems": [
    "C129_flag_partial",
    "C129_error_refuted"
   ],
   "note": "False of the code: rx_error is only changed by status bytes, so an error outlives its packet (C129_error_refuted). C129_flag_partial says exactly what rx_error is. (theories/Ulpirx_props.v)"
  },
  {
   "property": "C130",
   "status": "proved",
   "theorems": [
    "C130_bytes",
    "C130_progress"
   ],
   "note": "(theories/Ulpitx_props.v)"
  },
  {
   "property": "C131",
   "status": "partial",
   "theorems": [
    "C131_packets_partial",
    "C131_merged_refuted",
    "C131_cut_refuted"
   ],
   "note": "False of the code: packets handed over back to back are merged (C131_merged_refuted) and a packet is cut in two when the PHY receives in between (C131_cut_refuted). Proved for cores that start a packet only when the previous one was stopped and do not send while receiving. (theories/Ulpitx_props.v)"
  },
  {
   "property": "C132",
   "status": "partial",
   "theorems": [
    "C132_mode_partial",
    "C132_otg_partial",
    "C132_values",
    "C132_lost_refuted"
   ],
   "note": "False of the code: a change while a write is under way is lost for ever (C132_lost_refuted). Proved for every change made while no write to that register is under way; C132_values holds without that. (theories/Ulpitx_props.v)"
  },
  {
   "property": "C133",
   "status": "proved",
   "theorems": [
    "C133_hold",
    "C133_stop",
    "C133_delay"
   ],
   "note": "(theories/Ulpitx_props.v)"
  },
  {
   "property": "C134",
   "status": "proved",
   "theorems": [
    "C134_phase"
   ],
   "note": "(theories/Pllphase_props.v)"
  },
  {
   "property": "C135",
   "status": "partial",
   "theorems": [
    "C135_widen_first_partial",
    "C135_narrow_first_partial",
    "C135_same_width_partial",
    "C135_narrow_last_refuted",
    "C135_widen_last_refuted"
   ],
   "note": "False of the code when put_width_converter_first=False and the widths differ: the width converter behind the FIFO is still clocked by cd_from, so beats are repeated or lost (C135_narrow_last_refuted, C135_widen_last_refuted). Proved for the converter in front of the FIFO (the default), and for equal widths in either order. (theories/Cdcconv_props.v)"
  },
  {
   "property": "C136",
   "status": "proved",
   "theorems": [
    "C136_lossless",
    "C136_stable",
    "C136_offers",
    "C136_accepts",
    "C136_throughput",
    "C136_latency"
   ],
   "note": "(theories/Chain_props.v)"
  },
  {
   "property": "C137",
   "status": "proved",
   "theorems": [
    "C137_accepts",
    "C137_answered"
   ],
   "note": "(theories/Spihostlive_props.v)"
  },
  {
   "property": "C138",
   "status": "partial",
   "theorems": [
    "C138_i2c_restarts",
    "C138_uart_restarts",
    "C138_as_new",
    "C138_memory_refuted",
    "C138_clocks_refuted",
    "C138_spi_master_refuted",
    "C138_memory_partial",
    "C138_spi_master_partial",
    "C138_pulse_clock_partial",
    "C138_tuning_clock_partial"
   ],
   "note": "False of three cores, however long the reset: MemoryStream keeps its contents (C138_memory_refuted), the clock dividers keep their phase (C138_clocks_refuted), and the SPI master keeps its receive shift register, which shows in the upper bits of a short word (C138_spi_master_refuted). For these C138_memory_partial, C138_spi_master_partial, C138_pulse_clock_partial and C138_tuning_clock_partial say what does hold after a reset. C138_as_new and the two _restarts theorems prove it for the cores with synchroniser flip-flops or read ports; for a core all of whose registers are reset it is immediate (lemma plain in Reset_props.v). The two-clock FIFO is left out. (theories/Reset_props.v)"
  },
  {
   "property": "C139",
   "status": "proved",
   "theorems": [
    "C139_exchange",
    "C139_complete",
    "C139_selected"
   ],
   "note": "(theories/Spixchg_props.v)"
  },
  {
   "property": "C140",
   "status": "partial",
   "theorems": [
    "C140_late_partial",
    "C140_refuted"
   ],
   "note": "C140_refuted: a complete frame in which the slave took 0x80, 0x80 and the host returned 0x40, 0x40. C140_late_partial: in every frame with a slave always ready to answer, the host returns one word per word sent, with its last flag, and the concatenated bits of these words are one bit of no meaning followed by the bits of the words the slave took. Missing, because false: the equality of the words; not covered: boards with different clocks, dividers below 2, a slave that runs out of words during the frame. (theories/Spipair_props.v)"
  },
  {
   "property": "C141",
   "status": "proved",
   "theorems": [
    "C141_sync_level",
    "C141_async_level"
   ],
   "note": "(theories/Fifo_props.v)"
  },
  {
   "property": "C142",
   "status": "partial",
   "theorems": [
    "C142_received_partial",
    "C142_kept_partial",
    "C142_refuted"
   ],
   "note": "C142_refuted: with a user that does not read for nine received bytes, the ninth byte and the packet end are lost and the next packet is joined to the first. C142_received_partial: in every run what the user gets is, in order, the received beats that found room, less at most the FIFO's depth under way. C142_kept_partial: nothing is lost as long as at every PHY clock edge the beats received less the beats known to be read are fewer than the FIFO's depth. Missing, because false: no loss without that condition (the received stream cannot be held back and the FIFO's ready is ignored). (theories/Ulpifull_props.v)"
  },
  {
   "property": "C143",
   "status": "partial",
   "theorems": [
    "C143_bytes_partial",
    "C143_edge",
    "C143_whole_partial",
    "C143_refuted",
    "C143_turn_refuted"
   ],
   "note": "C143_refuted: a user late with a byte makes the PHY take a byte 0 in the middle of the packet. C143_turn_refuted: if the PHY takes the bus during the packet, its rest is sent later without a transmit command. C143_bytes_partial, C143_edge, C143_whole_partial: in every run the user's bytes go to the bus in order with the transmit command on the first of each packet; a byte the PHY takes is the user's next one if the FIFO shows it, else 0; and if it always shows one, what the PHY takes after the set-up is exactly what the user sent. Missing, because false: the same without that condition, and packets unbroken by the PHY's own transfers. (theories/Ulpifull_props.v)"
  },
  {
   "property": "C144",
   "status": "proved",
   "theorems": [
    "C144_reset",
    "C144_up"
   ],
   "note": "(theories/Ulpiboot_props.v)"
  },
  {
   "property": "C145",
   "status": "partial",
   "theorems": [
    "C145_stitcher",
    "C145_last_inserter",
    "C145_splitter",
    "C145_async_fifo",
    "C145_memory_refuted",
    "C145_memory_partial",
    "C145_memory_buffered_partial",
    "C145_reader_partial",
    "C145_reader_buffered_partial",
    "C145_regs",
    "C145_spi_master",
    "C145_spi_slave",
    "C145_spi_stream_phy",
    "C145_spi_stream_user",
    "C145_bridge_partial",
    "C145_bridge_refuted",
    "C145_i2c_proto",
    "C145_direct_ulpi"
   ],
   "note": "False as it stands for two cores. C145_memory_refuted: MemoryStream shows the word at address 0 in the cycle after a write, then its own. C145_bridge_refuted: with a memory that acknowledges one cycle late, SPIWishboneBridge withdraws a beat. Proved: the rule for the other cores, C145_memory_partial (the last write at least two cycles old, no rewind or write now), C145_memory_buffered_partial, C145_reader_partial, C145_reader_buffered_partial (no rewind), and C145_bridge_partial (with a memory that acknowledges strobed cycles only, every offered beat is taken at once). Missing, because false: those two without their conditions. (theories/Hold_props.v)"
  },
  {
   "property": "C146",
   "status": "partial",
   "theorems": [
    "C146_held",
    "C146_restart",
    "C146_plain",
    "C146_usb_partial",
    "C146_usb_refuted"
   ],
   "note": "Domain sync proved: C146_held, C146_restart (with C138 for which cores are as new after two cycles), C146_plain. Domain usb without ULPI: C146_usb_partial gives its reset exactly (the request as it stands at each edge); C146_usb_refuted: a loss of lock between two edges restarts the cores of sync but not those of usb. Not modelled: usb with ULPI (LUNA's PHYResetController). (theories/Crg_props.v)"
  },
  {
   "property": "C147",
   "status": "proved",
   "theorems": [
    "C147_words",
    "C147_paced"
   ],
   "note": "(theories/Spipairrx_props.v)"
  },
  {
   "property": "C148",
   "status": "partial",
   "theorems": [
    "C148_session_partial",
    "C148_discover",
    "C148_byte_helpers",
    "C148_session_refuted"
   ],
   "note": "False of the code at the example's own rates: the rest of a refused write is taken for new requests (C148_session_refuted). C148_session_partial: proved for every program and run in which the data of each write arrive within 36 (period/4 + 1) - 1 cycles of its length byte and no read of 0 bytes is asked for; the port's read waits (no time-out). C148_discover: discover is such a program. C148_byte_helpers: so are the calls write_byte_data and read_byte_data. (theories/Session_props.v)"
  },
  {
   "property": "C149",
   "status": "proved",
   "theorems": [
    "C149_ecp5",
    "C149_xilinx",
    "C149_one_port",
    "C149_one_port_xilinx"
   ],
   "note": "(theories/Pllinst_props.v)"
  },
  {
   "property": "C150",
   "status": "partial",
   "theorems": [
    "C150_ends_partial",
    "C150_done_partial",
    "C150_ends_refuted"
   ],
   "note": "False of the code without a limit on the arrival of write data: the rest of a refused write is taken for requests and a program waits for ever (C150_ends_refuted). C150_ends_partial: every program ends if the data of each write arrive within 36 (period/4 + 1) - 1 cycles of its length byte, the devices do not stretch the clock, and the UART offers and takes bytes time and again. C150_done_partial adds C148: the bus has then seen exactly the transactions reported to the program. (theories/Sessionlive_props.v)"
  },
  {
   "property": "C151",
   "status": "partial",
   "theorems": [
    "C151_carried",
    "C151_core",
    "C151_bridge_partial",
    "C151_refused_write_refuted",
    "C151_pause_refuted"
   ],
   "note": "False of the code at the example's own clocks: the data of a refused write of 250 bytes is dropped faster than USB at 60 MHz can bring it, and what is left is taken for new requests and put on the bus (C151_refused_write_refuted); an acknowledged write whose data pauses writes other bytes to the device and reports success (C151_pause_refuted). C151_bridge_partial: requests of any length, for a host that waits for its answers and reads at least one byte, over a link that offers the data without a pause from 36 (period/4 + 1) - 1 cycles after the length byte on. Transport without loss (C151_carried) is proved for every host. (theories/Link_props.v)"
  },
  {
   "property": "C152",
   "status": "proved",
   "theorems": [
    "C152_reset",
    "C152_parts",
    "C152_configured"
   ],
   "note": "(theories/Utmi_props.v)"
  },
  {
   "property": "C153",
   "status": "partial",
   "theorems": [
    "C153_session_partial",
    "C153_as_bytes_partial",
    "C153_session_refuted",
    "C153_discover_queue_refuted"
   ],
   "note": "False of the code: the data of a refused write that comes late is taken for a request the program never made, and the answer to that is left unread (C153_session_refuted); discover_queue asks for 128 bytes in one read and gets a packet of one byte (C153_discover_queue_refuted). C153_session_partial: for programs of write_block_data, read_block_data and probes with arguments in range, over a link that offers the data of a write without a pause from 36 (period/4 + 1) - 1 cycles after its length byte on. C153_as_bytes_partial: reading USB packets and reading bytes makes no difference then. (theories/Usbbus_props.v)"
  },
  {
   "property": "C154",
   "status": "partial",
   "theorems": [
    "C154_ends_partial",
    "C154_done_partial",
    "C154_ends_refuted"
   ],
   "note": "False of the code without a limit on the arrival of write data: the rest of a refused write is taken for requests and a program waits for ever (C154_ends_refuted). C154_ends_partial: every program ends if from 36 (period/4 + 1) - 1 cycles after the length byte of a write on the link offers its data without a pause, the devices do not stretch the clock, and the link offers and takes bytes time and again. C154_done_partial adds C153: the bus has then seen exactly the transactions reported to the program and no packet is left unread. (theories/Usbbuslive_props.v)"
  },
  {
   "property": "C155",
   "status": "partial",
   "theorems": [
    "C155_exchange_partial",
    "C155_long",
    "C155_next",
    "C155_exchange_refuted"
   ],
   "note": "False if the USB core marks the end of full packets and sends an empty packet after them: an exchange of more than a packet returns one packet only and after an exchange of exactly one packet the next call returns nothing (C155_exchange_refuted on a run; C155_long, C155_next for every run). C155_exchange_partial: true for calls of at least one byte and, in that case, less than a packet. LUNA and libusb are not in the repository; their behaviour is assumed as written in Usbspi_model.v, without timeouts. (theories/Usbspi_props.v)"
  },
  {
   "property": "C156",
   "status": "proved",
   "theorems": [
    "C156_ends",
    "C156_done"
   ],
   "note": "(theories/Usbspilive_props.v)"
  },
  {
   "property": "C157",
   "status": "partial",
   "theorems": [
    "C157_blocks",
    "C157_pair",
    "C157_rest",
    "C157_program",
    "C157_rest_refuted"
   ],
   "note": "False of the code: the slave never marks a word as the last, so the USB endpoint keeps a packet that is not full and its bytes are not received (C157_rest_refuted on a run; C157_rest: for every run, exactly the bytes of whole packets are received once the bus is at rest; C157_program: the same from the exchange calls of a program on the host's side). C157_blocks, C157_pair: every call returns a whole packet of the bytes sent, in order, none lost in between, for a link that takes each word within 16 cycles. One data line, boards with the same clock; LUNA and libusb as assumed in Usbspi_model.v. (theories/Usbspirecv_props.v)"
  },
  {
   "property": "C158",
   "status": "partial",
   "theorems": [
    "C158_words_partial",
    "C158_complete",
    "C158_delivered",
    "C158_words_refuted"
   ],
   "note": "Full statement: a slave whose clock is at least twice the SPI clock (an edge in every div+1 host cycles) receives the words sent. It is false: C158_words_refuted (div = 7, an edge every 6 host cycles; the host raises chip select 5 cycles after the last rising edge, before the last falling edge, and the last bit is lost). Proved instead for a slave with an edge in every min(div+1, 5) host cycles; missing: nothing else, 5 is the exact bound for large div. (theories/Spiclock_props.v)"
  },
  {
   "property": "C159",
   "status": "proved",
   "theorems": [
    "C159_paced",
    "C159_rest",
    "C159_recv",
    "C159_program"
   ],
   "note": "(theories/Spiclockrecv_props.v)"
  },
  {
   "property": "C160",
   "status": "proved",
   "theorems": [
    "C160_late",
    "C160_three_needed"
   ],
   "note": "(theories/Spiclockback_props.v)"
  },
  {
   "property": "C161",
   "status": "partial",
   "theorems": [
    "C161_reset",
    "C161_values_partial",
    "C161_complete_partial",
    "C161_values_refuted"
   ],
   "note": "False of PHYs that give up a read when a packet comes in, which they tell by raising dir and nxt together: the dumper takes the first byte received for the value (C161_values_refuted, for any registers and any byte). Proved for PHYs that keep to the protocol otherwise: C161_values_partial (order and values at all times), C161_complete_partial (the end), C161_reset (without that limit). (theories/Ulpidump_props.v)"
  },
  {
   "property": "C162",
   "status": "partial",
   "theorems": [
    "C162_words_partial",
    "C162_complete",
    "C162_delivered",
    "C162_words_refuted"
   ],
   "note": "Full statement: a slave whose clock is at least twice the SPI clock receives the words sent, whatever its edges find when they coincide with a change of the pins. It is false: C162_words_refuted (every edge on a change of the SPI clock, found low each time; the word is lost). Proved instead when every min(div+1, 5) host cycles contain an edge that does not coincide with a change. (theories/Spiblur_props.v)"
  },
  {
   "property": "C163",
   "status": "partial",
   "theorems": [
    "C163_wbusy_partial",
    "C163_wbusy_refuted",
    "C163_not_bytes"
   ],
   "note": "Full statement: wbusy is True exactly while a write on the endpoint has not ended. It is false: C163_wbusy_refuted (two sends and the end of one; a send that raises). Proved instead for programs that send only bytes, and only while wbusy is False (C163_wbusy_partial). (theories/Usbwbusy_props.v)"
  },
  {
   "property": "C164",
   "status": "partial",
   "theorems": [
    "C164_first_partial",
    "C164_again_partial",
    "C164_again_refuted",
    "C164_sizes",
    "C164_endpoints_partial"
   ],
   "note": "Full statement: every elaboration of the same object gives the device asked for. It is false with Microsoft descriptors: the n-th elaboration has n handlers for the same request (C164_again_refuted, for every configuration and n). Proved: the first elaboration (C164_first_partial), later ones without Microsoft descriptors, and their descriptors, endpoints and user handlers in any case (C164_again_partial); endpoints for up to 15 pairs (C164_endpoints_partial, see C104). (theories/Usbgen_props.v)"
  },
  {
   "property": "C165",
   "status": "proved",
   "theorems": [
    "C165_paced",
    "C165_rest",
    "C165_recv",
    "C165_program"
   ],
   "note": "(theories/Spiblurrecv_props.v)"
  },
  {
   "property": "C166",
   "status": "proved",
   "theorems": [
    "C166_late",
    "C166_clear_needed"
   ],
   "note": "(theories/Spiblurback_props.v)"
  },
  {
   "property": "C167",
   "status": "proved",
   "theorems": [
    "C167_echo",
    "C167_hold_needed",
    "C167_whole_needed"
   ],
   "note": "(theories/Spiloop_props.v)"
  },
  {
   "property": "C168",
   "status": "proved",
   "theorems": [
    "C168_echo",
    "C168_divisor_needed"
   ],
   "note": "(theories/Spiloophost_props.v)"
  },
  {
   "property": "C169",
   "status": "partial",
   "theorems": [
    "C169_transfers",
    "C169_usable",
    "C169_order",
    "C169_closed_partial",
    "C169_closed_refuted",
    "C169_prompt_refuted"
   ],
   "note": "Proved for every library, program and order of dropping: transfers only while the interface is claimed, endpoints usable, one release, nothing after the end. Missing: the context is closed only if releaseInterface succeeds (refuted otherwise: claim refused), and only after a run of the collector (refuted: an endpoint is in a reference cycle). (theories/Usblife_props.v)"
  },
  {
   "property": "C170",
   "status": "proved",
   "theorems": [
    "C170_unchanged",
    "C170_complete"
   ],
   "note": "(theories/Spistub_props.v)"
  },
  {
   "property": "C171",
   "status": "proved",
   "theorems": [
    "C171_received",
    "C171_arrives",
    "C171_delivered",
    "C171_silent"
   ],
   "note": "(theories/Spibench_props.v)"
  },
  {
   "property": "C172",
   "status": "proved",
   "theorems": [
    "C172_samples",
    "C172_nobody",
    "C172_stuck",
    "C172_stream_nobody",
    "C172_stream_stuck",
    "C172_proto_nobody",
    "C172_proto_stuck",
    "C172_discover",
    "C172_writer_nobody",
    "C172_init_nobody"
   ],
   "note": "(theories/I2cempty_props.v)"
  },
  {
   "property": "C173",
   "status": "proved",
   "theorems": [
    "C173_reads",
    "C173_waits",
    "C173_index_error",
    "C173_value_error",
    "C173_too_long"
   ],
   "note": "(theories/Usbread_props.v)"
  },
  {
   "property": "C174",
   "status": "proved",
   "theorems": [
    "C174_core_nobody",
    "C174_core_stuck",
    "C174_uart_nobody",
    "C174_uart_stuck",
    "C174_uart_discover",
    "C174_usb_nobody",
    "C174_usb_stuck",
    "C174_init_stuck"
   ],
   "note": "(theories/Emptyprog_props.v)"
  },
  {
   "property": "C175",
   "status": "proved",
   "theorems": [
    "C175_initiator",
    "C175_core",
    "C175_core_never",
    "C175_writer",
    "C175_init",
    "C175_uart",
    "C175_usb",
    "C175_uart_soon",
    "C175_usb_soon"
   ],
   "note": "(theories/I2cheld_props.v)"
  }
 ]
}