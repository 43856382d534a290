# Formal model of lambdaconcept/lambdalib in Rocq (Coq 8.16.1)

## 1. How the code is modelled

lambdalib is a library of Amaranth 0.4 hardware cores plus a few plain Python
helpers.  Each core is modelled as a *synchronous circuit*, a Mealy machine

    Record circuit (I O : Type) := { cst : Type; creset : cst;
                                     cout : cst -> I -> O; cnext : cst -> I -> cst }.

(`theories/Hdl.v`).  One step is one cycle of the `sync` clock: `cout` is what
the `m.d.comb` statements drive in that cycle, `cnext` is what the `m.d.sync`
statements load at the end of it.  `trace c ins` runs the circuit from reset on
an arbitrary list of inputs; a theorem quantified over `ins` is quantified over
every schedule, every data value and every execution length.  Parameters of the
Python constructors are parameters of the Gallina definitions.

Translation rules (the trusted reading of Amaranth):

* a signal assigned in `m.d.sync` is a state field, with its `reset=` value
  (default 0) in `creset`; unassigned in a cycle means unchanged;
* a signal assigned in `m.d.comb` is a function of state and input, with default
  0 when no assignment is active; the last active assignment wins;
* `m.FSM()` starts in the first declared state (or `reset=`);
* an unsigned `Signal(w)` is a `Z`, and every value stored into it is reduced
  modulo `2^w` explicitly in the model; `Signal(range(n))` has width
  `range_width n` (0 for n <= 1);
* 1-bit control signals are `bool`;
* `Cat(a, b)` has `a` in the low bits;
* payload that a core only moves around is an arbitrary type, so those theorems
  hold for every layout.

Stream cores with one sink and one source are `smod A B` records (`Stream.v`):
`src` (source channel), `rdy` (sink.ready), `nxt` (next state), which can be
composed in series.  Observations (`accepted`, `emitted`, ...) are functions of
the *trace of handshake signals only*, never of the internal state.

## 2. File layout

* `Hdl.v`, `Stream.v`, `Bits.v` - execution of circuits, handshake observations, bit slices (the shared specification vocabulary).
* `X_model.v`  - model of a repo file, function by function, with line citations.
* `X_spec.v`   - where the specification is more than a few lines: functions on observable histories, independent of the model.
* `X_proofs.v` - invariants and lemmas.
* `X_props.v`  - the property theorems (`Theorem Cnn_...`), their non-vacuity examples and `Print Assumptions`.
  The small ones also contain the lemmas.

Names: `Cnn_..._refuted` proves that the property as stated is false of the code (a witness execution, often for
every continuation); `Cnn_..._partial` is the strongest part proved in that case, with the missing hypothesis
visible in its statement.  MANIFEST.json gives such properties the status "partial" and says what fails.

## 3. Properties: what is modelled, how it is proved

PipeValid/PipeReady as smods over an arbitrary payload; invariant `accepted = emitted ++ held` by induction on the trace.

* **C01** PipeValid is a lossless one-place buffer - proved, `Pipe_props.v`: `C01_pipe_valid_lossless`
* **C02** PipeValid keeps its output stable and sustains full throughput - proved, `Pipe_props.v`: `C02_pipe_valid_stable`, `C02_pipe_valid_throughput`, `C02_pipe_valid_latency`
* **C03** PipeReady is lossless and adds no latency - proved, `Pipe_props.v`: `C03_pipe_ready_lossless`, `C03_pipe_ready_cuts_ready_path`, `C03_pipe_ready_zero_latency`, `C03_pipe_ready_stable`

Up/down converter smods, lanes as lists of words with bit-slicing lemmas; the specification is a pure function on beat lists (group / slice); the round trip composes circuits and specifications. C82 is false (stale lanes).

* **C04** Up-converter packs words in lane order - proved, `Converter_props.v`: `C04_up_converter_packs`, `C04_up_converter_remainder`, `C04_up_converter_stable`, `C04_up_converter_flow`
* **C05** Down-converter slices words in lane order - proved, `Converter_props.v`: `C05_down_converter_slices`, `C05_down_converter_progress`, `C05_down_converter_stable`
* **C06** Width conversion round-trips - proved, `Converter_props.v`: `C06_down_up_roundtrip`, `C06_up_down_roundtrip_data`, `C06_up_down_roundtrip_marks`
* **C82** Up-converter pads short packets with zeros - partial, `Converter_props.v`: `C82_short_group_zero_padded_refuted`, `C82_first_short_group_partial`, `C82_unused_lanes_partial`

Pure function returning error / (kind, ratio); arithmetic.

* **C07** Converter accepts exactly the integral ratios - proved, `Converter_props.v`: `C07_converter_error_iff_not_divisible`, `C07_converter_ratio_exact`, `C07_converter_kinds`, `C07_identity_converter`

smod; per-beat functional specification computed from the accepted beats; induction on the trace.

* **C08** Stitcher groups packets by count - proved, `Utils_props.v`: `C08_stitcher_exact`, `C08_stitcher_packet_count`
* **C11** LastInserter bounds packet length - proved, `Utils_props.v`: `C11_last_inserter_exact`, `C11_last_inserter_bound`, `C11_last_inserter_wraps`

Vectors of sources/sinks as lists; per-channel history invariant.

* **C09** Splitter delivers each beat exactly once to every source - proved, `Utils_props.v`: `C09_splitter_exactly_once`, `C09_splitter_cycle`
* **C10** Merger zips its sinks - proved, `Utils_props.v`: `C10_merger_zips`, `C10_merger_lockstep`, `C10_merger_stable`, `C10_merger_progress`

smod containing the WaitTimer model; invariants on held word and idle counter. C14 is false.

* **C12** LastOnTimeout never loses or reorders data - proved, `Utils_props.v`: `C12_last_on_timeout_lossless`, `C12_last_on_timeout_ready`
* **C13** LastOnTimeout sets last only on input last or idle timeout, and flushes on timeout - proved, `Utils_props.v`: `C13_last_only_on_last_or_timeout`, `C13_flush_on_timeout`
* **C14** LastOnTimeout holds its offered beat stable under back-pressure - partial, `Utils_props.v`: `C14_last_on_timeout_stable_refuted`, `C14_last_on_timeout_stable_partial`

RoundRobin as next-grant function, Arbiter as a circuit over a list of sinks; nearest-requester specification by cyclic distance; packet-ownership invariant; bounded waiting by a distance measure. C83 is false (time-out coincidence).

* **C15** RoundRobin picks the next requester - proved, `Utils_props.v`: `C15_round_robin_nearest`, `C15_round_robin_fair`
* **C16** Arbiter never interleaves packets - proved, `Utils_props.v`: `C16_arbiter_no_interleave`
* **C17** Arbiter forwards each sink's beats exactly once - proved, `Utils_props.v`: `C17_arbiter_cycle`, `C17_arbiter_lossless`
* **C18** Arbiter is starvation free - proved, `Utils_props.v`: `C18_arbiter_bounded_wait`, `C18_arbiter_handover`, `C18_arbiter_stall_out`, `C18_one_sink`
* **C83** Arbiter source is stable when its sinks are - partial, `Utils_props.v`: `C83_arbiter_source_stable_refuted`, `C83_arbiter_source_stable_partial`

Packing function with injectivity; the word FIFOs of amaranth.lib.fifo are modelled by their documented behaviour (queues, stale pointers for the asynchronous one).

* **C19** FIFO wrappers carry first, last and payload together - proved, `Fifo_props.v`: `C19_fifo_packing_injective`, `C19_sync_fifo_lossless`, `C19_sync_fifo_stable`, `C19_sync_fifo_handshake`, `C19_sync_fifo_buffered_handshake`, `C19_async_fifo_lossless`, `C19_async_fifo_depth`, `C19_async_fifo_flow`

Counters over Z; closed-form invariants. C23 is false around rst.

* **C20** WaitTimer is exact - proved, `Timer_props.v`: `C20_wait_timer_exact`
* **C21** WaitNTimer is exact - proved, `Timer_props.v`: `C21_wait_n_timer_exact`, `C21_wait_n_timer_idle`
* **C22** PulseClock long-run rate is exact - proved, `Timer_props.v`: `C22_pulse_clock_rate`, `C22_pulse_clock_rate_after_rst`, `C22_pulse_clock_no_drift`, `C22_pulse_clock_frequency`
* **C23** PulseClock pulses last one clock cycle - partial, `Timer_props.v`: `C23_pulse_width_without_rst_partial`, `C23_pulse_width_around_rst_partial`, `C23_pulse_width_refuted`
* **C24** TuningClock output toggles at the exact rate - proved, `Timer_props.v`: `C24_tuning_clock_rate`, `C24_tuning_clock_frequency`
* **C25** BlinkKeep stretches activity by exactly timeout cycles - proved, `Timer_props.v`: `C25_blink_keep_exact`, `C25_blink_keep_full_duty`, `C25_blink_domain_period`

Circuit over Z counters; the waveform specification is a list of pin levels; run-length lemma per bit and pixel.

* **C26** WS2812B emits the exact bit waveform - proved, `Led_props.v`: `C26_ws2812b_plays_waveforms`, `C26_ws2812b_pixel`, `C26_ws2812b_timings`

Memory as function Z -> word with explicit address wrap; invariants relate the address registers to the numbers of words written and read. C28, C29, C84 are false in corner cases.

* **C27** MemoryStream write/rewind/read-back - proved, `Mem_props.v`: `C27_read_back`, `C27_sink_ready`, `C27_read_back_exact`
* **C28** MemoryStream stops after the n written words - partial, `Mem_props.v`: `C28_stops_after_packet_partial`, `C28_full_memory_repeats`, `C28_stops_after_packet_refuted`
* **C29** MemoryStream data read while writing is the data written - partial, `Mem_props.v`: `C29_read_while_writing_refuted`, `C29_read_while_writing_partial`, `C29_offered_partial`, `C29_buffered_partial`
* **C30** MemoryStreamReader replays its init buffer - proved, `Mem_props.v`: `C30_reader_replays`, `C30_reader_exact`
* **C84** A refused MemoryStream beat is not stored - partial, `Mem_props.v`: `C84_refused_beat_not_stored_refuted`, `C84_refused_beat_after_write_partial`, `C84_other_words_partial`

Bit-level functions over Z against an independent definition of binary32 rounding toward zero; binary search invariant for CLZ; pipelines with held beats. C31 is false for INT_MIN only.

* **C31** Int2Float truncates correctly - partial, `Math_props.v`: `C31_int2float_truncates_partial`, `C31_rounding_is_unique`, `C31_int2float_exact`, `C31_int2float_truncates_refuted`
* **C32** Int2Float is a lossless pipeline - proved, `Math_props.v`: `C32_int2float_lossless`, `C32_int2float_stable`, `C32_int2float_ready`, `C32_int2float_latency`
* **C33** CLZ counts leading zeros - proved, `Math_props.v`: `C33_clz_counts`, `C33_clz_zero`

Two's complement lemma for the product; one-beat pipeline.

* **C34** Multiplier products never overflow - proved, `Math_props.v`: `C34_multiplier_exact`, `C34_multiplier_stable`, `C34_multiplier_ready`

Circuit with explicit modular arithmetic; specification is the recursive difference equation on the accepted samples.

* **C35** IIRFilter computes its difference equation - proved, `Iir_props.v`: `C35_iir_difference_equation`, `C35_iir_stable`, `C35_iir_ready`, `C35_iir_latency`

FSM circuits; trace induction against list functions. C86 is false.

* **C36** StreamRegs writes registers in sequence - proved, `Regs_props.v`: `C36_stream_regs_contents`, `C36_stream_regs_strobe`, `C36_register_value_unique`
* **C37** I2CRegStream expands each register write into three bytes - proved, `I2creg_props.v`: `C37_i2c_reg_stream`, `C37_i2c_reg_stream_stable`
* **C38** TCA9548A done means the mux was programmed - proved, `I2creg_props.v`: `C38_tca9548a_packets`, `C38_tca9548a_stable`, `C38_tca9548a_done`
* **C76** LiteX StreamRegs/RegsStream - proved, `Regs_props.v`: `C76_litex_stream_regs`, `C76_reverse_bytes`, `C76_regs_stream_offer`, `C76_regs_stream_lossless`, `C76_regs_stream_never_full`, `C76_regs_stream_writes`, `C76_regs_stream_delivers`
* **C77** I2CRegisterInit plays its register table - proved, `I2cinit_props.v`: `C77_order`, `C77_done`, `C77_transactions`
* **C86** I2CRegisterInit done means the table was sent - partial, `I2cinit_props.v`: `C86_done_sent_refuted`, `C86_done_sent_partial`

Wrapper and sequencer circuits; packet grammar as list functions. C89-C91 are false.

* **C39** SSD1306 wrapper frames every packet - proved, `Lcd_props.v`: `C39_framing`, `C39_no_error`, `C39_stable`
* **C40** SSD1306 wrapper skips exactly the failed packet on address NAK - proved, `Lcd_props.v`: `C40_address`, `C40_dropped`
* **C41** SSD1306 powers up, initialises and clears before showing frames - proved, `Lcd_props.v`: `C41_sequence`, `C41_ready`, `C41_i2c`
* **C89** SSD1306 wrapper re-addresses after any refused byte - partial, `Lcd_props.v`: `C89_refuted`, `C89_address_partial`
* **C90** SSD1306 reset restarts the display - partial, `Lcd_props.v`: `C90_refuted`, `C90_between_frames_partial`
* **C91** SSD1306 never withdraws an offered I2C byte - partial, `Lcd_props.v`: `C91_refuted`, `C91_no_reset_partial`

Full initiator FSM (24 states) with the bus synchronisers; invariants on SCL/SDA per state, per-command edge log; termination by a measure for a bus that answers. C46 is false (busy lags).

* **C42** I2C initiator changes SDA under high SCL only for start and stop - proved, `I2c_props.v`: `C42_sda_changes`
* **C43** I2C initiator transmits octets MSB first with nine clocks - proved, `I2c_props.v`: `C43_write`
* **C44** I2C initiator receives octets MSB first - proved, `I2c_props.v`: `C44_read`
* **C45** I2C initiator commands finish - proved, `I2c_props.v`: `C45_finishes`, `C45_busy_low`, `C45_short_period_hangs`
* **C46** I2C initiator ignores strobes while busy - partial, `I2c_props.v`: `C46_ignored_refuted`, `C46_ignored_partial`, `C46_taken`
* **C85** I2C initiator start and stop commands - proved, `I2c_props.v`: `C85_start_stop`, `C85_scl_seen_high`

Command FSMs around the real initiator model, against arbitrary pads; log of issued operations against a grammar. C50 is false.

* **C47** I2CStream issues well formed transactions - proved, `I2cstream_props.v`: `C47_commands`, `C47_write_on_bus`, `C47_error_only_on_write`, `C47_start_offered`
* **C48** I2CStream returns one word per read - proved, `I2cstream_props.v`: `C48_one_word_per_read`, `C48_read_on_bus`, `C48_stable`, `C48_not_first`
* **C49** I2CWriterStream retries NAKed transactions without losing bytes - proved, `I2cwriter_props.v`: `C49_transactions`, `C49_bus`, `C49_outcome`
* **C50** I2CWriterStream eventually retries after a NAK - partial, `I2cwriter_props.v`: `C50_retry_refuted`, `C50_retry_partial`

Protocol core against an arbitrary I2CStream environment; requests as byte lists. C53, C87 are false.

* **C51** I2CProto executes write requests - proved, `I2cproto_props.v`: `C51_exchanges`, `C51_bus`, `C51_bus_stable`, `C51_write`
* **C52** I2CProto executes read requests - proved, `I2cproto_props.v`: `C52_read`
* **C53** I2CProto stays in sync under any host pacing - partial, `I2cproto_props.v`: `C53_gaps_refuted`, `C53_queue_refuted`, `C53_gaps_partial`
* **C87** A zero-length read returns only its status - partial, `I2cproto_props.v`: `C87_zero_read_refuted`, `C87_zero_read_partial`, `C87_zero_read_ends_partial`

Software side as pure functions on byte lists, parsed back by the protocol specification. C88 is false.

* **C54** Software I2CBus requests parse back - proved, `I2cbus_props.v`: `C54_write`, `C54_write_raises`, `C54_write_result`, `C54_read`, `C54_read_result`, `C54_read_raises`, `C54_silent`, `C54_discover`
* **C88** I2CBus byte helpers report failure - partial, `I2cbus_props.v`: `C88_byte_helpers_refuted`, `C88_byte_helpers_partial`

Slave circuit bit by bit; shift histories. C56, C92 are false in corner cases.

* **C55** SPI slave receives every bit once - proved, `Spislave_props.v`: `C55_received`, `C55_delivered`, `C55_no_overrun`
* **C56** SPI slave restarts its stage sequence on every frame - partial, `Spislave_props.v`: `C56_refuted`, `C56_cut_frame_partial`, `C56_single_stage_partial`
* **C92** SPI slave answers MSB first - partial, `Spislave_props.v`: `C92_refuted`, `C92_update_edges_partial`, `C92_cpha1_partial`, `C92_cpha0_partial`, `C92_words_partial`

Divider counter closed form; C58 is false (8-bit divider).

* **C57** SPI clock generator period - proved, `Spiclk_props.v`: `C57_clock`, `C57_strobes`
* **C58** SPI master never exceeds the requested clock - partial, `Spiclk_props.v`: `C58_refuted`, `C58_clock_partial`, `C58_cs_delay`

Master and stream circuits; bit history invariants, word-level simulation. C93 is false.

* **C59** SPI master transfers words MSB first - proved, `Spimaster_props.v`: `C59_transfers`, `C59_fifo_ready`, `C59_delivered`, `C59_chip_select`
* **C60** SPIStream keeps chip select for the whole packet - proved, `Spistream_props.v`: `C60_words`, `C60_cs_transfers`, `C60_cs_low`, `C60_packets_apart`, `C60_cs_edges`
* **C93** SPI master answers every word - partial, `Spimaster_props.v`: `C93_refuted`, `C93_answered_partial`

Bridge FSM; burst specification as a function of the word list.

* **C61** SPIWishboneBridge bursts - proved, `Spibridge_props.v`: `C61_bursts`, `C61_read_data`, `C61_handshake`

ULPI circuits; trace induction with packet functions on the pin history.

* **C62** ULPI splitter reconstructs packets - proved, `Ulpi_props.v`: `C62_splitter`
* **C63** ULPI sender tags packet starts - proved, `Ulpi_props.v`: `C63_tags`, `C63_stable`
* **C64** ULPI power-on reset timing - proved, `Ulpi_props.v`: `C64_por`, `C64_times`
* **C65** DumpULPIRegs dumps every register once - proved, `Ulpi_props.v`: `C65_dump`, `C65_held`, `C65_command`, `C65_output`
* **C78** ULPI transceiver terminates packets with a one cycle stop - proved, `Ulpi_props.v`: `C78_bus`
* **C79** DirectULPI programs the PHY before passing traffic - proved, `Ulpi_props.v`: `C79_init_first`, `C79_bus`, `C79_reset`, `C79_offers`
* **C94** DirectULPI frames received packets - proved, `Ulpi_props.v`: `C94_received`

The parameter search with binary64 floats (`Float_model.v`: every operation rounds to nearest even; `Float_proofs.v`: relative error, monotonicity, exactness). Exact frequencies are fractions with small denominators, so the rounding errors cannot hide a limit or reorder two output errors: legality and best output error follow for the exact values. Argmin lemma over the candidate list; existence by arithmetic; object life cycle as a fold over calls. C66 and C67 fail for the second criterion, C69 (7-series), C97, C98, C99 are false.

* **C66** ECP5 PLL parameters are legal and optimal - partial, `Pll_props.v`: `C66_ecp5_partial`, `C66_ecp5_floats`, `C66_vco_refuted`
* **C67** Xilinx PLL parameters are legal and optimal - partial, `Pll_props.v`: `C67_xilinx_partial`, `C67_xilinx_floats`, `C67_vco_refuted`
* **C68** PLL parameter objects freeze - proved, `Pll_props.v`: `C68_ecp5_freeze`, `C68_xilinx_freeze`, `C68_outputs`, `C68_accepts`
* **C69** PLL secondary dividers are integers - partial, `Pll_props.v`: `C69_ecp5`, `C69_xilinx_refuted`, `C69_xilinx_partial`
* **C97** ECP5 secondary outputs run at a legal frequency close to the request - partial, `Pll_props.v`: `C97_refuted`, `C97_bounds_partial`, `C97_divides_refuted`
* **C98** ECP5 coarse phase parameters are whole numbers that encode the requested phase - partial, `Pll_props.v`: `C98_phase_partial`, `C98_refuted`
* **C99** PLL outputs drive distinct clock domains - partial, `Pll_props.v`: `C99_refuted`, `C99_secondary_partial`
* **C134** 7-series phases are the requested ones - proved, `Pllphase_props.v`: `C134_phase`

FSM circuit; exact waveform after a load, termination measure over the 7-bit wrap. False when taps changes during the move, or has a nonzero reset value.

* **C70** DELAY_LatticeECP5 locks with the requested number of taps - partial, `Delay_props.v`: `C70_wave_partial`, `C70_locked_partial`, `C70_live_partial`, `C70_width`, `C70_refuted`, `C70_wrap_refuted`
* **C100** The ECP5 delay line ends at the requested position - partial, `Delay_props.v`: `C100_position_partial`, `C100_refuted`

Circuit invariants, the UART core being an arbitrary environment.

* **C71** AsyncSerialStream delivers each received byte once - proved, `Serial_props.v`: `C71_delivered`, `C71_held`, `C71_prompt`, `C71_transmit`, `C71_tx_stream`
* **C81** AsyncSerialStreamHalfDuplex never talks and listens at once - proved, `Serial_props.v`: `C81_exclusive`, `C81_turnaround`, `C81_listen`

Simulation processes as circuits with random draws as inputs (one step from one clock edge to the next).

* **C72** StreamSimSender sends its list once in order - proved, `Sim_props.v`: `C72_prefix`, `C72_ends`, `C72_held`, `C72_progress`, `C72_throttled`, `C72_delay`
* **C73** StreamSimReceiver records exactly the transfers - proved, `Sim_props.v`: `C73_recorded`, `C73_overrun`, `C73_ready`, `C73_delay`
* **C95** StreamSimConnect is lossless - proved, `Sim_props.v`: `C95_connect`, `C95_held`, `C95_progress`
* **C96** StreamSimReceiver.verify accepts exactly the expected data - proved, `Sim_props.v`: `C96_verify`
* **C101** bfm_send sends its packets once in order - proved, `Bfm_props.v`: `C101_send`, `C101_send_timeout`
* **C102** bfm_read returns the beats transferred - proved, `Bfm_props.v`: `C102_read`, `C102_read_timeout`

Pure functions over lists and strings.

* **C74** Endpoint layouts are checked - proved, `Layout_props.v`: `C74_rejects`, `C74_keeps`
* **C75** Splitter/Merger layout validation - proved, `Layout_props.v`: `C75_splitter`, `C75_merger`
* **C80** hexdump prints every byte in order - proved, `Hexdump_props.v`: `C80_lines`, `C80_all_bytes`, `C80_header`
* **C106** USBDevice opens the idx-th matching device - proved, `Usb_props.v`: `C106_search`, `C106_identifiers`

Wire and FIFO compositions, reusing C19.

* **C103** USB stream endpoints carry bytes and packet ends - proved, `Usb_props.v`: `C103_sync`, `C103_async_out`, `C103_async_in`, `C103_activity`

Endpoint and descriptor lists as functions of the size list; false beyond 15 pairs.

* **C104** USBGenericDevice advertises exactly the endpoints it has - partial, `Usb_props.v`: `C104_endpoints_partial`, `C104_limit_refuted`, `C104_default_sizes`

Refuted by a run; the partial is an invariant of the trace.

* **C107** First marks survive LastOnTimeout and Int2Float - partial, `First_props.v`: `C107_last_on_timeout_refuted`, `C107_int2float_refuted`, `C107_last_on_timeout_partial`, `C107_int2float_partial`

The filter is modelled with the multiplier and the coefficient registers as inputs. The multiplier is constrained only by what it was given and what it returned; the invariant adds the products still owed to the accumulator. The plain filter is shown to be the special case by a simulation.

* **C115** IIR filter with a shared multiplier and changing coefficients - proved, `Iirx_props.v`: `C115_difference_equation`, `C115_ready`, `C115_stable`, `C115_operands_stable`, `C115_bursts`, `C115_offers`, `C115_answers`, `C115_internal`

The panel is specified from the controller data sheet in Oled_spec.v: registers, addressing window, RAM pointer and an I2C packet decoder. The bytes the driver sends (C41) are run through it; the proof follows the RAM pointer through each frame.

* **C116** What the user sends is what the screen shows - proved, `Oled_props.v`: `C116_screen`, `C116_sizes`

Two measures on the state of the host: the cycles left of the word under way plus those to empty the receive FIFO, and the cycles until a word is taken. Each falls in every cycle, by the invariants of C59, C60 and C117.

* **C137** The SPI host never gets stuck - proved, `Spihostlive_props.v`: `C137_accepts`, `C137_answered`

Invariant: what the initiator asks of SCL is fixed by its state, except while it waits for SCL to rise. With both synchroniser stages of SCL at 0, a state that releases SCL and has a nonzero timer keeps both (the timer is frozen, the wait for SCL never ends), and a state that pulls SCL reaches one within a quarter period, so a command once taken never ends. I2CProto: a state in which it waits for its host or for the bus, with the initiator jammed if a byte is under way, is never left and sends nothing; every byte sent leads to such a state. Each byte the writer takes is a command. From power-up two cycles pass before the synchronisers show the wire; no core starts a byte in them. The bridges only carry bytes (C122_carried, C151_carried). Programs: a call that returns has used at least one byte (packet) and does not depend on those behind, so by induction over the program n more bytes let at most n more calls return.

* **C175** An I2C bus whose SCL is held low for ever - proved, `I2cheld_props.v`: `C175_initiator`, `C175_core`, `C175_core_never`, `C175_writer`, `C175_init`, `C175_uart`, `C175_usb`, `C175_uart_soon`, `C175_usb_soon`

While I2CStream waits for a byte the last command of the initiator is that byte (invariant, no hypothesis on the sink), so by C172 its error output and its data are fixed by g. Invariant of I2CProto: on an empty bus it is never in the states after an acknowledged address and its status is 1, on a stuck bus never in the error state and its status is 0. The bridges only carry the bytes (C122_carried, C151_carried); the results of the calls follow by induction over the program on a list of equal bytes or of packets of equal bytes.

* **C174** A program on an I2C bus with nobody on it, or with SDA stuck low - proved, `Emptyprog_props.v`: `C174_core_nobody`, `C174_core_stuck`, `C174_uart_nobody`, `C174_uart_stuck`, `C174_uart_discover`, `C174_usb_nobody`, `C174_usb_stuck`, `C174_init_stuck`

The calls of Usbbus_model on an arbitrary list of packets: case analysis on the buffers (all bytes or not) and on the packets.

* **C173** Packets and exceptions of I2CBus over USB - proved, `Usbread_props.v`: `C173_reads`, `C173_waits`, `C173_index_error`, `C173_value_error`, `C173_too_long`

SDA of the pad is a function g of the level asked for (identity: empty bus; constant false: stuck). Invariant of the initiator with the bus monitor of C43: in a state that releases SCL, the quarter period timer is freshly loaded or the first synchroniser stage holds g of the level asked for, and both stages do once SCL is up; hence the samples of a clock are g of the levels at its rising edge. The composites follow by projecting the initiator out (C47 to C52): the outcomes of the beats, the answers of the protocol, and the replay of the writer (C49), which never leaves the first byte of its first triple.

* **C172** I2C with nobody on the bus, and with SDA stuck low - proved, `I2cempty_props.v`: `C172_samples`, `C172_nobody`, `C172_stuck`, `C172_stream_nobody`, `C172_stream_stuck`, `C172_proto_nobody`, `C172_proto_stuck`, `C172_discover`, `C172_writer_nobody`, `C172_init_nobody`

The bench is the product of the models of the master (C59) and of the slave (C55), with dq.oe of the slave constantly low, as it is never assigned. The data sampled by the slave are the groups sent: at each rising edge a word is under way, so the chip select is low (hypothesis on the user) and the output enabled (C114). The slave's chunks are then whole words (as in C117). Arrival: the slave looks at pins two cycles old, and a full count is pushed in the next cycle since its clock register is high. Zeros: invariant on the receive register, and C19 for the FIFO.

* **C171** An SPI master and an SPI slave connected by their pins: what arrives, and what comes back - proved, `Spibench_props.v`: `C171_received`, `C171_arrives`, `C171_delivered`, `C171_silent`

The bench is the host of Spilink_model with its data input computed from its registers. Invariant over the run: at each rising edge of the clock pin the lines read are those driven (the output is enabled, C114, because a word is under way); with C139 each word returned is then the number made of the groups of the word sent.

* **C170** A host whose SPI data pins are connected to themselves gets its words back - proved, `Spistub_props.v`: `C170_unchanged`, `C170_complete`

The library is any function from the history of calls to success or failure; objects live as CPython's do (reference counts, and a collector for cycles). Invariant over the program: the object is alive exactly when the program or an endpoint not yet collected refers to it, and the calls made are those of a successful opening, transfers, and, at the end, those of __del__.

* **C169** A USB device object is usable as long as the program holds it or an endpoint, and gives the device back at the end - partial, `Usblife_props.v`: `C169_transfers`, `C169_usable`, `C169_order`, `C169_closed_partial`, `C169_closed_refuted`, `C169_prompt_refuted`

Host and looped slave on the same pins. The host meets the hypotheses of C167: its clock keeps its level for `div` cycles after a rising edge, and the chip select stays low meanwhile because the word under way is counted, or is in the receive FIFO for at least two cycles (invariant: words received = words taken from the FIFO + its level); frames are whole words (C158). The pulses of the frame, grouped by C139, are then matched with the delayed bits word by word, by induction over the words. The counterexample for a divisor of 2 is a computed run.

* **C168** A host gets its own words back from a looped SPI slave, one word late - proved, `Spiloophost_props.v`: `C168_echo`, `C168_divisor_needed`

Invariant over the pins the looped slave has looked at: either no word of the frame is complete, or the last complete word is in the shift register with as many groups gone as edges since, or it is on its way through the two stages of the FIFO, which takes the three cycles after the last sampling edge of a word. A separate function of the pins gives the level of the line; the frame is read off it.

* **C167** An SPI slave looped to itself sends back what it receives, a word later - proved, `Spiloop_props.v`: `C167_echo`, `C167_hold_needed`, `C167_whole_needed`

Reduction to the core of C160: an edge on a change counts for the earlier cycle if it found both pins old, else for the later one. Inside a frame at most one of clock and chip select changes at a time, so every edge then finds the pins of the cycle it counts for. The data line towards the slave plays no part.

* **C166** What the SPI host board receives from a slave board whose clock edges may fall on changes of the pins - proved, `Spiblurback_props.v`: `C166_late`, `C166_clear_needed`

As C159, with C162 in place of C158: the pace argument (C55) and the last-word argument only use the pins that the slave finds, not that they are clear.

* **C165** A program's bytes go from one PC to the other although the slave board's clock edges may fall on changes of the pins - proved, `Spiblurrecv_props.v`: `C165_paced`, `C165_rest`, `C165_recv`, `C165_program`

The object is its Microsoft argument and its list of handlers; elaborate is a function from the object to what LUNA is given and the object afterwards. The object after n elaborations is computed by induction. The endpoints are C104's.

* **C164** Elaborating a USB device gives the device asked for, each time - partial, `Usbgen_props.v`: `C164_first_partial`, `C164_again_partial`, `C164_again_refuted`, `C164_sizes`, `C164_endpoints_partial`

On C118's model of the transfers. Invariant over programs: the transfers asked for are, up to order, the outstanding and the ended ones, with different identifiers; the number of outstanding writes of the endpoint is 1 when wbusy is True and 0 otherwise, preserved by each end of a transfer and by each call of a program that sends only when wbusy is False. Two runs refute the general claim.

* **C163** wbusy tells whether a write on a USB endpoint is in progress - partial, `Usbwbusy_props.v`: `C163_wbusy_partial`, `C163_wbusy_refuted`, `C163_not_bytes`

The slave's clock of C158 gets, in each cycle of the host's clock, an optional first edge whose sample is any mixture of the old and the new pins. For each such schedule there is a schedule of clear edges under which the slave takes the same samples: a mixed sample that finds the clock pin new counts as a clear edge (the chip select and the data lines do not change in the cycle of a rising edge nor in the first cycles of the high phase), one that finds it old as no edge (the slave had already seen that level, as each phase has a clear edge). Frames ending at a mixed sample are those of the host's run one cycle before or after. Then C158's invariant applies. Refuted if mixed edges count as edges.

* **C162** An SPI slave on its own clock survives edges that fall on a change of the pins - partial, `Spiblur_props.v`: `C162_words_partial`, `C162_complete`, `C162_delivered`, `C162_words_refuted`

The core is the dumper of C65 with the power-on reset of C64, on two clocks with edges in any order. The PHY is a separate specification: a four-state automaton over what is seen on the pins, which says what a PHY may do after it took a read command. Invariant relating the automaton's state to the dumper's: a read is under way in the PHY exactly while the dumper waits, and the value due is that of the address counter. The end is reached by a rank that each phase of a round raises. Reads given up by the PHY for an incoming packet are the counterexample.

* **C161** DumpULPIRegs outputs what the PHY's registers hold - partial, `Ulpidump_props.v`: `C161_reset`, `C161_values_partial`, `C161_complete_partial`, `C161_values_refuted`

A run of the two boards is a list of cycles of the host with the slave's edges in each. Invariant over the cycles of a frame: in each phase of the clock the slave has three edges, so the rising edges it finds are those of the host, and at a rising edge its last three edges found the clock low; then the update of the last falling edge is done and the data line shows the next bit whatever the moment of reading. The slave's word is followed from edge to edge as in C140. The chip select's delay gives the slave an edge at rest before the frame. A run shows that two edges are not enough.

* **C160** What the SPI host board receives from a slave board with a clock of its own - proved, `Spiclockback_props.v`: `C160_late`, `C160_three_needed`

The packets of C157 with the clocks of C158: the words pushed by the slave are those of C158, the FIFO passes them on as in C147 (its readers: the rate bound of C55, or an always-ready one with two more edges), the packets are cut as in C157.

* **C159** Two boards of the SPI bridge, each on its own clock, carry a program's bytes from one PC to the other - proved, `Spiclockrecv_props.v`: `C159_paced`, `C159_rest`, `C159_recv`, `C159_program`

The clock of the SPI slave is no longer assumed to see every value of the pins (C117): a schedule gives the number of edges of the slave's clock in each cycle of the host's clock. Invariant over the cycles of the host: each phase of the SPI clock lasts div+1 cycles, the data line is constant during the high phase, the chip select is asserted in its first five cycles (one cycle of posedge_reg, two of the receive FIFO, one of the SPIStream, one of the timer), so that between two edges of the slave's clock no rising edge is hidden; what the slave samples is what the host put on the line up to one bit, and chip select frames agree. The rest is C117's proof, from the samples. The claim for twice the SPI clock is refuted by a run.

* **C158** An SPI slave with its own clock, at least twice the SPI clock, receives what the host sends - partial, `Spiclock_props.v`: `C158_words_partial`, `C158_complete`, `C158_delivered`, `C158_words_refuted`

The pair of boards of C147 with the packets of C155 on the slave's side. The FIFO of the slave carries its beats unchanged (the FIFO claims), and the slave never sets last, so the endpoint sends full packets only; the bytes are those of C147. False for bytes that do not fill a packet.

* **C157** A program that calls recv on the slave board gets what the host board sent - partial, `Usbspirecv_props.v`: `C157_blocks`, `C157_pair`, `C157_rest`, `C157_program`, `C157_rest_refuted`

exchange over the host of C139, with the packets of the USB endpoints cut from the bytes by two small functions; what LUNA does with full packets is a parameter. The answers carry the last marks of the bytes sent (C139), so by induction on the program each call takes exactly its own packets. Refuted in the case of marked full packets followed by empty ones.

* **C155** A program that uses exchange over the SPI bridge gets each answer in its call - partial, `Usbspi_props.v`: `C155_exchange_partial`, `C155_long`, `C155_next`, `C155_exchange_refuted`

Infinite runs of C155's model. A measure (clock phases left, words in the FIFO, the chip select timer) falls while no byte moves, until the bridge is at rest; at rest either an answer waits, or all is answered and then the program has more to write: by the session lemma of C155, or, with empty packets, by counting short packets, of which every transfer causes one and a call takes at most one.

* **C156** A program that uses exchange over the SPI bridge ends - proved, `Usbspilive_props.v`: `C156_ends`, `C156_done`

Infinite runs of C153's model, with the measure of C150 on the bridge without the UART. The program over packets and the one over bytes have written the same and end together (C153), so the induction on the program is that of C150.

* **C154** A program that uses I2CBus over the USB bridge comes to its end - partial, `Usbbuslive_props.v`: `C154_ends_partial`, `C154_done_partial`, `C154_ends_refuted`

I2CBus written again over packets (a read takes one packet), on the bridge of C151. The invariant of C51 gives the last marks of every answer, complete or not, which cut the bytes into the packets the calls expect; then the program over packets makes the steps of the program over bytes, and the session proof of C148 applies at the link.

* **C153** A program that uses I2CBus over the USB bridge - partial, `Usbbus_props.v`: `C153_session_partial`, `C153_as_bytes_partial`, `C153_session_refuted`, `C153_discover_queue_refuted`

The core of C128-C133 with an asynchronous reset on all its registers, beside the counter of C105. The run splits at the reset; between resets the parts are those of the earlier claims, and C132 applied to the first cycle gives the configuration.

* **C152** UTMITranslator starts again after a reset - proved, `Utmi_props.v`: `C152_reset`, `C152_parts`, `C152_configured`

The bridge of C122 with the streams of the USB device in place of the UART. The invariant of C122 with one clause replaced: from the moment the address can have been answered until the data of a write is complete, a byte waits in the receive FIFO, because the link offers one in every cycle. False when the link pauses, or brings fewer than one byte per cycle, as at the example's clocks.

* **C151** USB to I2C bridge end to end - partial, `Link_props.v`: `C151_carried`, `C151_core`, `C151_bridge_partial`, `C151_refused_write_refuted`, `C151_pause_refuted`

Infinite runs of C148's model. A measure on the bridge (bytes on the way, cycles left in the protocol engine, C110) falls in every cycle in which no byte moves at the UART, until an answer waits to be sent or everything is at rest. At rest the program is not waiting (C148), so its next byte comes. By induction on the program: a call needs a bounded number of bytes, and results do not change when more bytes come. The refutation runs to a state that is its own successor.

* **C150** A program that uses I2CBus over the UART bridge comes to its end - partial, `Sessionlive_props.v`: `C150_ends_partial`, `C150_done_partial`, `C150_ends_refuted`

elaborate as the dictionary of arguments it builds from the object of C66-C68 and C97-C99, with the keys as strings; the primitives as a small specification (EHXPLLL, PLLE2_BASE: which domain a port clocks and at what frequency). The number of outputs is bounded by C68, so the dictionary is computed for each shape; the frequencies come from C66, C67, C69, C97 and the phases from C98.

* **C149** A PLL drives each domain with the clock that was asked for it - proved, `Pllinst_props.v`: `C149_ecp5`, `C149_xilinx`, `C149_one_port`, `C149_one_port_xilinx`

Software and gateware together: a program is a tree of I2CBus calls (the model of C54), its bytes enter the bridge of C122 when the UART delivers them. By induction on the program the events at the UART are split into calls; this gives the condition of C122 that a host waits for its answers, prefix by prefix, and C122 then explains each exchange by the bus. False without a time limit on the data of a write, as C122.

* **C148** A program that uses I2CBus over the UART bridge - partial, `Session_props.v`: `C148_session_partial`, `C148_discover`, `C148_byte_helpers`, `C148_session_refuted`

The two boards of the SPI bridge example joined by their wires (the model of C140). The slave sees every change of the pins two cycles late (C117); its FIFO never overruns (C55) and, with a user that is always ready, is a delay of two cycles (the latency lemma of C136).

* **C147** What the host board is given reaches the slave board's user - proved, `Spipairrx_props.v`: `C147_words`, `C147_paced`

The reset synchroniser as two flip-flops set asynchronously, around any core of Reset_model; levels and clock edges come in any order. Invariant: while the reset is requested both flip-flops are set; after it a shift register empties in two edges; the core then follows C138.

* **C146** Cores wait for the PLL and start anew after any loss of lock - partial, `Crg_props.v`: `C146_held`, `C146_restart`, `C146_plain`, `C146_usb_partial`, `C146_usb_refuted`

Two consecutive cycles of each circuit compared (for the two-clock cores, two consecutive edges of the reader), with the invariant that the read register shows the word at the read address, or that the reader never knows of more words than were written; sub-circuits by the trace of the part.

* **C145** Offered beats stay until taken - partial, `Hold_props.v`: `C145_stitcher`, `C145_last_inserter`, `C145_splitter`, `C145_async_fifo`, `C145_memory_refuted`, `C145_memory_partial`, `C145_memory_buffered_partial`, `C145_reader_partial`, `C145_reader_buffered_partial`, `C145_regs`, `C145_spi_master`, `C145_spi_slave`, `C145_spi_stream_phy`, `C145_spi_stream_user`, `C145_bridge_partial`, `C145_bridge_refuted`, `C145_i2c_proto`, `C145_direct_ulpi`

The same two-clock circuit: the power-on reset has made one step per edge of the user's clock; a rank of the set-up sequence never falls and rises with each byte the PHY takes and at the end of the wait.

* **C144** DirectULPI brings the link up - proved, `Ulpiboot_props.v`: `C144_reset`, `C144_up`

DirectULPI as one two-clock circuit: power-on reset, set-up sequence, transceiver, splitter, sender and both asynchronous FIFOs. A run is split into a run of each part (transceiver side, the two FIFOs); the FIFO invariant and the invariant of the set-up then give the user's view. Concrete runs refute the unconditional claims.

* **C142** DirectULPI delivers every received packet to its user - partial, `Ulpifull_props.v`: `C142_received_partial`, `C142_kept_partial`, `C142_refuted`
* **C143** A packet given to DirectULPI appears on the ULPI bus whole, once and framed - partial, `Ulpifull_props.v`: `C143_bytes_partial`, `C143_edge`, `C143_whole_partial`, `C143_refuted`, `C143_turn_refuted`

The counters of the word FIFOs, by one invariant: level is a function of the state of the FIFO, accepted and delivered beats are read off the trace.

* **C141** The level attribute of a FIFO tells how many beats it holds - proved, `Fifo_props.v`: `C141_sync_level`, `C141_async_level`

Host and slave board on a common clock, wires instead of pmods. The clock of the host is low and stopped when chip select falls (the delay outlasts the last falling edge) and low for three cycles before each rising edge, so C92 for whole frames applies to the slave; C139 at both ends of the frame says which rising edges belong to the words returned in it.

* **C140** What the SPI host board receives from the SPI slave board - partial, `Spipair_props.v`: `C140_late_partial`, `C140_refuted`

The two cores inside the host are SPIStream and SPIPHYMaster with the wires of the bridge; C59 (pulses and answers of the PHY), C60 (words through SPIStream) and C117 (framing) are combined, and the words truncated by SPIStream are shown equal to the numbers read.

* **C139** An SPI host exchanges one word for each word sent - proved, `Spixchg_props.v`: `C139_exchange`, `C139_complete`, `C139_selected`

A core with a reset input is the core with one more input that sends every register but the reset-less ones (signals declared so, synchroniser flip-flops, memories and their read ports) to its reset value. Two cycles of reset from any two states give the same state (one lemma per core); with idle pins it is the power-up state. Memory stream, clock dividers and SPI master: counter-examples for a reset of any length, and the theorems C27, C22, C24, C59 restated after a reset, from generalised invariants.

* **C138** A reset puts a core back to its power-up behaviour - partial, `Reset_props.v`: `C138_i2c_restarts`, `C138_uart_restarts`, `C138_as_new`, `C138_memory_refuted`, `C138_clocks_refuted`, `C138_spi_master_refuted`, `C138_memory_partial`, `C138_spi_master_partial`, `C138_pulse_clock_partial`, `C138_tuning_clock_partial`

A buffer is a stream module with a content list, an invariant and a rank, all one-step conditions; buffers are closed under series composition and every stage is one, so every pipeline is one, by induction on the list of stages.

* **C136** Pipelines of stream buffers are buffers - proved, `Chain_props.v`: `C136_lossless`, `C136_stable`, `C136_offers`, `C136_accepts`, `C136_throughput`, `C136_latency`

Events are clock edges of either domain; the width converter and the asynchronous FIFO of C19 are composed at edges of the domain that clocks each. A run is split into a run of the converter and one of the FIFO. False with the FIFO first.

* **C135** Converter between clock domains - partial, `Cdcconv_props.v`: `C135_widen_first_partial`, `C135_narrow_first_partial`, `C135_same_width_partial`, `C135_narrow_last_refuted`, `C135_widen_last_refuted`

The conversion (iir.py:44-53) is computed in the float model of C124: multiplying by a power of two is exact, int truncates, and ceil(log2(cmax + 1)) is any n with 2^(n-1) < x <= 2^n (1 + 2^-40). The register model of C35 is applied to the converted coefficients. The accuracy of an output follows from the error of each product and of the two shifts; scipy's design step is not modelled.

* **C125** IIR coefficients in fixed point are the coefficients - partial, `Iircoef_props.v`: `C125_registers_partial`, `C125_registers_refuted`, `C125_best_shift_refuted`, `C125_best_shift_partial`, `C125_accuracy`

SPIPHYSlave and SPIWishboneBridge are composed by their streams; each keeps its own trace inside the composition. C126 combines C55 (words received), C61 (operations asked for by words), C117 (host and slave joined by pins) and C55_no_overrun (the FIFO cannot fill up when the consumer stalls less than a word's time); that the bridge never starts a read is shown together with it by induction over the run. C127 is refuted by a run; the data path of a read is proved from C92.

* **C126** Writes sent over SPI arrive on the Wishbone bus - proved, `Spiwb_props.v`: `C126_operations`, `C126_host_writes`
* **C127** Reads over SPI return the data and leave later commands alone - partial, `Spiwb_props.v`: `C127_reads_then_commands_refuted`, `C127_read_answer_partial`

The Verilog core ulpi_wrapper.v is modelled block by block as one circuit. Receiving depends on the PHY's pins only; the packets of the PHY and of the core are both defined from observed cycles and shown equal by induction over the run.

* **C128** UTMI receive: packets from the PHY reach the device core unchanged - proved, `Ulpirx_props.v`: `C128_bytes`, `C128_packets`
* **C129** UTMI receive: rx_error is about the packet being received - partial, `Ulpirx_props.v`: `C129_flag_partial`, `C129_error_refuted`

A ULPI PHY is a decoder of the observed bus (transmit command, bytes, stp, register writes, aborts). Invariant: its state and the byte on the bus against the core's state machine, with the two-entry buffer as a list; bytes handed over = bytes taken + under way. Progress: the work left, counted in cycles with nxt, never grows and falls with every nxt. C131 adds that within a packet the buffer never runs empty; C132 follows one register from the change to the write. C129, C131 and C132 are false of the code and refuted by runs (C132 for every continuation).

* **C130** UTMI transmit: every byte handed over is taken by the PHY, in order - proved, `Ulpitx_props.v`: `C130_bytes`, `C130_progress`
* **C131** UTMI transmit: each packet of the core is one packet on the ULPI bus - partial, `Ulpitx_props.v`: `C131_packets_partial`, `C131_merged_refuted`, `C131_cut_refuted`
* **C132** The PHY is configured as the UTMI inputs say - partial, `Ulpitx_props.v`: `C132_mode_partial`, `C132_otg_partial`, `C132_values`, `C132_lost_refuted`
* **C133** The link keeps to the ULPI protocol - proved, `Ulpitx_props.v`: `C133_hold`, `C133_stop`, `C133_delay`

SPIMasterBridge of examples/spi_bridge.py is composed from the models of SPIStream and SPIPHYMaster; the slave runs on its own clock and is related to it only by the sequence of values of the pins. The echo hypothesis of C60 is proved from C59, chip select covers whole words, so the words the slave cuts by count (C55) are those the host sent.

* **C117** An SPI host and an SPI slave joined by their pins exchange words faithfully - proved, `Spilink_props.v`: `C117_words`, `C117_complete`, `C117_delivered`, `C117_frames`, `C117_apart`

The USB stack and the device are an environment that ends outstanding transfers in any order, any number per handleEvents, with any status and bytes, and may raise; a program is any list of calls. Invariant: between calls no IN transfer is outstanding, during a recv exactly its own. C119 and C120 are false of the code (timeouts drop bytes, interrupted reads go on, asynchronous errors are ignored).

* **C118** A USB endpoint's recv returns its own transfer, and send keeps order - proved, `Usbep_props.v`: `C118_recv_own_transfer`, `C118_send_order`, `C118_exchange`
* **C119** No byte delivered by a USB device is lost - partial, `Usbep_props.v`: `C119_bytes_partial`, `C119_sync_timeout_refuted`, `C119_interrupted_refuted`
* **C120** A failed USB transfer is reported to the caller - partial, `Usbep_props.v`: `C120_errors_refuted`, `C120_sync_errors_partial`

State potential: timer plus cycles since the last change of a line never falls below a bound that depends on the controller state; every change of a line happens with the timer at zero. Exact times: a count of remaining quarters decreases by one cycle per cycle.

* **C121** I2C bus timing - proved, `I2ctime_props.v`: `C121_set_up_and_hold`, `C121_scl_low_high`, `C121_scl_period`, `C121_never_too_fast`, `C121_byte_time`, `C121_exact_period`, `C121_exact_byte_time`, `C121_bridge`

The bridge of examples/i2c_bridge.py is composed from the models of AsyncSerialStream, SyncFIFO and I2CProto. Invariant: the host's view at the UART and at the core differ by the bytes in the buffers; the time the host has taken for its data plus the time left in the address byte (C121) bounds the wait, so the data is there when the address is answered and C51 applies.

* **C122** UART to I2C bridge end to end - partial, `Bridge_props.v`: `C122_carried`, `C122_core`, `C122_bridge_partial`, `C122_refused_write_refuted`, `C122_overrun_refuted`

The log of C51 (C122 over the UART) determines the bytes exchanged and requests can be told apart by their header and length, so each call of the model of I2CBus (C71) consumes exactly the exchanges it asked for; induction over the program.

* **C123** I2CBus programs end to end - proved, `I2cend_props.v`: `C123_core`, `C123_bridge`

The parameters are computed in the float model and compared with integer arithmetic: rounding is monotone and exact on whole numbers, so a quotient can only be misrounded across a whole number when it is closer to it than the denominator allows; decimal constants are compared with their rational values. T0H and tuning words are refuted in corner cases.

* **C124** Cycle counts computed from frequencies are the intended ones - partial, `Timing_props.v`: `C124_quotients`, `C124_spi`, `C124_ulpi`, `C124_tuning_partial`, `C124_tuning_exact_partial`, `C124_tuning_refuted`, `C124_ws2812b_partial`, `C124_ws2812b_refuted`, `C124_blink`

Bounded response by a decreasing measure (theories/Progress.v): the core and its initiator are given a natural-number measure that falls in every counted cycle until the awaited event.

* **C108** The display core starts and keeps taking bytes - proved, `Lcdlive_props.v`: `C108_starts`, `C108_byte_taken`
* **C109** The I2C stream master always answers - proved, `I2clive_props.v`: `C109_accepts`, `C109_read_offered`, `C109_closes`
* **C110** The I2C protocol bridge never gets stuck - proved, `I2clive_props.v`: `C110_never_stuck`
* **C111** The I2C writer keeps taking bytes - proved, `I2clive_props.v`: `C111_writer_takes`
* **C112** Register initialisation completes - proved, `I2cinitlive_props.v`: `C112_init_completes`
* **C114** SPI master keeps answering and drives exactly as asked - proved, `Spilive_props.v`: `C114_output_enable`, `C114_accepts`

Invariant tying controller states to the last command, then case analysis of one step.

* **C113** The last byte read and the last acknowledge stay readable - proved, `I2chold_props.v`: `C113_data_holds`, `C113_ack_holds`

Counter closed form; false by one cycle.

* **C105** UTMITranslator resets the PHY for 2 us - partial, `Usb_props.v`: `C105_reset_partial`, `C105_refuted`

## 4. What is modelled, file by file

| file in /repo/lambdalib | modelled | not modelled |
|---|---|---|
| interface/stream.py | EndpointDescription checks and layout, PipeValid, PipeReady, Up/Down/Identity converters and Converter in one or two clock domains, FIFO wrappers, bfm_send, bfm_read | Record's own layout checks; the word FIFOs themselves (amaranth.lib.fifo) |
| interface/stream_utils.py | everything | |
| interface/stream_sim.py | StreamSimSender, StreamSimReceiver, connect and verify helpers | printing |
| cores/time, cores/led | everything, cycle counts and tuning words in binary64 floats | frequencies that are not whole numbers of Hz |
| cores/mem/stream.py | everything | |
| cores/float, cores/math | everything | |
| cores/filter/iir.py | the filter, with internal or external multiplier, fixed or dynamic coefficients; the float to fixed point conversion | scipy design, the printing |
| cores/regs.py, litex/cores/regs.py | everything | LiteX CSR machinery (registers are inputs/outputs) |
| cores/i2c | initiator, stream, writer stream, register stream, register init, TCA9548A, protocol | tristate pad instances (pads are inputs: the level seen, outputs: what is driven) |
| cores/lcd/ssd1306.py | everything | |
| cores/spi | everything | tristate/IO buffers; frequencies that are not whole numbers of Hz |
| cores/usb/ulpi.py | transceiver, splitter, sender, timer, register dump with its power-on reset, DirectULPI with its power-on reset and both FIFOs (two clocks, edges in any order) | metastability of por.done, which is read across the clock domains without a synchroniser; the ResetSynchronizer of DumpULPIRegs; LUNA bus records |
| cores/usb/endpoint_cdc.py, generic_device.py, utmi.py | wrappers, endpoint and descriptor lists, request handlers and Microsoft descriptors, PHY reset and bus direction | LUNA and usb_protocol classes |
| cores/usb/ulpi_wrapper.v | everything, with the asynchronous reset constant within a cycle | resets shorter than a cycle |
| cores/pll | parameter search, object life cycle, the arguments of the primitives, DELAY_LatticeECP5 | the primitives, beyond the clock equations in Pllinst_props |
| cores/serial.py | AsyncSerialStream, AsyncSerialTXStream, half duplex | the UART core of amaranth_stdio (its outputs are inputs); debug pin |
| ../examples/i2c_bridge.py, spi_bridge.py | the logic between UART and pads; for the I2C bridge over USB, between the streams of the USB device and the pads | platforms, LEDs, the USB device itself |
| tests/test_cores_spi.py | MasterSlaveBench, MasterStreamBench, SlaveLoopBench | WbBridgeBench (skipped by the tests; its cores of this library are modelled), the tests themselves |
| ../examples/crg.py | the reset of the domain sync, and of usb without ULPI | the PLL itself, LUNA's PHYResetController |
| software/i2c/bus.py, software/utils.py | I2CBus and hexdump | printing to the terminal (the text is the result) |
| software/usb/device.py | the device search, USBEndpoint, the life of the device object | usb1 and libusb (an environment ending transfers at will), the contents of control transfers |

## 5. Trusted base

* Coq 8.16.1 kernel (including `vm_compute`), no plugins, standard library only.
* `Print Assumptions` stands under every property theorem; every one answers "Closed under the global
  context": no axiom at all.  (A scan of the loaded libraries lists seven constants of `Coq.ssr.ssrunder`:
  they are fields of a module type of the standard library's ssreflect files, loaded with Lia/Lqa, and no theorem
  depends on them.)
* The reading of Amaranth given in section 1 (and of the non-blocking assignments of ulpi_wrapper.v in the same way), and the hand translation of each module; every definition cites the
  lines it models.
* External code, replaced by assumptions stated in the model files: amaranth.lib.fifo (queues; for AsyncFIFO any
  stale view of the other side's pointer), FFSynchronizer (two flip-flops), amaranth_stdio AsyncSerial and LUNA
  (arbitrary environments), LiteX CSR and FIFO (inputs, queue), vendor primitives, the Amaranth simulator's scheduling of sync processes.
* Python floats are binary64 with round to nearest even over the rationals (`Float_model`); overflow, subnormals,
  NaN and signed zero are left out.  `C124_specfloat` compares the rounding with Coq's SpecFloat on samples.
* Resets: every execution starts from the reset state.  A reset of the clock domain in the middle of an execution
  is the subject of C138 (`Reset_model.v`, which gives the registers that Amaranth does not reset) and C152; the other
  theorems are about executions without it.

## 6. Mutation tests

`seeded/LOG.jsonl` records edits of the model made in a scratch copy, with the theorems that stopped proving.
