{"id": "C01", "title": "PipeValid is a lossless one-place buffer", "statement": "Feeding PipeValid any sequence of cycles, the beats (first, last, payload) accepted on sink are exactly the beats delivered on source, in order, followed by at most one beat still inside; nothing is lost, duplicated, reordered or altered.", "quantifier": "every input trace of any length, every payload type", "why_tests_cant": "The property ranges over every cycle-by-cycle pattern of valid/ready/data on both sides, an infinite set of schedules; the repo's tests draw a few random schedules.", "anchors": ["lambdalib/interface/stream.py: PipeValid"]}
{"id": "C02", "title": "PipeValid keeps its output stable and sustains full throughput", "statement": "Once PipeValid offers a beat on source and it is not taken, the same beat is offered in the next cycle whatever the sink does. While source.ready is high the sink is always ready, and each accepted beat is offered on source in the very next cycle.", "quantifier": "every input trace of any length", "why_tests_cant": "The property ranges over every cycle-by-cycle pattern of valid/ready/data on both sides, an infinite set of schedules; the repo's tests draw a few random schedules.", "anchors": ["lambdalib/interface/stream.py: PipeValid"]}
{"id": "C03", "title": "PipeReady is lossless and adds no latency", "statement": "For every trace, beats accepted on sink of PipeReady equal beats delivered on source, in order, followed by at most one stored beat; the sink.ready output never depends combinationally on source.ready, and an empty PipeReady offers the sink beat on source in the same cycle.", "quantifier": "every input trace of any length, every payload type", "why_tests_cant": "The property ranges over every cycle-by-cycle pattern of valid/ready/data on both sides, an infinite set of schedules; the repo's tests draw a few random schedules.", "anchors": ["lambdalib/interface/stream.py: PipeReady"]}
{"id": "C04", "title": "Up-converter packs words in lane order", "statement": "Converter(n, k*n) groups consecutive sink words, k per source word or fewer when last cuts a group short; lane i (or lane k-1-i when reverse) of the delivered word is the i-th word of the group; source.last/first are the OR over the group; no word is lost or duplicated.", "quantifier": "every width n >= 1, every ratio k >= 2, both reverse settings, every input trace", "why_tests_cant": "The property ranges over every cycle-by-cycle pattern of valid/ready/data on both sides, an infinite set of schedules; the repo's tests draw a few random schedules.", "anchors": ["lambdalib/interface/stream.py: _UpConverter, _Converter"]}
{"id": "C05", "title": "Down-converter slices words in lane order", "statement": "Converter(k*n, n) delivers for every sink word exactly its k slices, lowest lane first (highest first when reverse), with first only on the first slice and last only on the final slice, and acknowledges the sink word exactly when its last slice is taken.", "quantifier": "every width n >= 1, ratio k >= 2, both reverse settings, every trace whose sink obeys the stream rule", "why_tests_cant": "The property ranges over every cycle-by-cycle pattern of valid/ready/data on both sides, an infinite set of schedules; the repo's tests draw a few random schedules.", "anchors": ["lambdalib/interface/stream.py: _DownConverter, _Converter"]}
{"id": "C06", "title": "Width conversion round-trips", "statement": "Passing a stream of words through a down-converter and then the matching up-converter returns the same words with the same first/last marks; passing narrow words (a multiple of the ratio between lasts) up and then down returns the same words.", "quantifier": "every word list, width, ratio and reverse flag", "why_tests_cant": "Round trip must hold for all data and all widths; tests never run a converter with a ratio other than one.", "anchors": ["lambdalib/interface/stream.py: _UpConverter, _DownConverter"]}
{"id": "C07", "title": "Converter accepts exactly the integral ratios", "statement": "Building a converter raises ValueError exactly when the wider width is not a multiple of the narrower; otherwise the chosen converter kind matches the direction and ratio*narrow = wide.", "quantifier": "every pair of positive widths", "why_tests_cant": "Infinite parameter space.", "anchors": ["lambdalib/interface/stream.py: _get_converter_ratio"]}
{"id": "C08", "title": "Stitcher groups packets by count", "statement": "Stitcher(count) passes every beat through unchanged in the same cycle except that, numbering packets from zero, first survives only when the packet's index is 0 mod count and last survives only when it is count-1 mod count.", "quantifier": "every count >= 1 and every trace", "why_tests_cant": "The property ranges over every cycle-by-cycle pattern of valid/ready/data on both sides, an infinite set of schedules; the repo's tests draw a few random schedules.", "anchors": ["lambdalib/interface/stream_utils.py: Stitcher"]}
{"id": "C09", "title": "Splitter delivers each beat exactly once to every source", "statement": "For every trace with a well behaved sink, what each source has received is the list of beats accepted on sink (projected to its fields, first/last copied) possibly followed by the beat currently offered; the sink is acknowledged exactly in the cycle where the slowest source completes.", "quantifier": "every number of sources >= 1, every per-source ready schedule, every trace", "why_tests_cant": "The property ranges over every cycle-by-cycle pattern of valid/ready/data on both sides, an infinite set of schedules; the repo's tests draw a few random schedules.", "anchors": ["lambdalib/interface/stream_utils.py: Splitter"]}
{"id": "C10", "title": "Merger zips its sinks", "statement": "The beats delivered by Merger are, in order, the zip of the beats accepted on all sinks (payload fields side by side, first and last OR-ed), at most one combination is held inside, and all sinks are always acknowledged in the same cycle.", "quantifier": "every number of sinks >= 1, every trace", "why_tests_cant": "The property ranges over every cycle-by-cycle pattern of valid/ready/data on both sides, an infinite set of schedules; the repo's tests draw a few random schedules.", "anchors": ["lambdalib/interface/stream_utils.py: Merger"]}
{"id": "C11", "title": "LastInserter bounds packet length", "statement": "The stream leaving LastInserter(count) carries the same data beats in the same cycles; last is set on every beat that had last and on every beat that would be the count-th since the previous last, and nowhere else; hence no packet exceeds count beats.", "quantifier": "every count >= 1, every trace", "why_tests_cant": "The property ranges over every cycle-by-cycle pattern of valid/ready/data on both sides, an infinite set of schedules; the repo's tests draw a few random schedules.", "anchors": ["lambdalib/interface/stream_utils.py: LastInserter"]}
{"id": "C12", "title": "LastOnTimeout never loses or reorders data", "statement": "The data delivered by LastOnTimeout is the data accepted on its sink in order, with at most one word held inside; an input last is always delivered as last.", "quantifier": "every timeout >= 1, every trace", "why_tests_cant": "The property ranges over every cycle-by-cycle pattern of valid/ready/data on both sides, an infinite set of schedules; the repo's tests draw a few random schedules.", "anchors": ["lambdalib/interface/stream_utils.py: LastOnTimeout"]}
{"id": "C13", "title": "LastOnTimeout sets last only on input last or idle timeout, and flushes on timeout", "statement": "A word delivered with last either had last on the sink or is delivered after the sink was idle (not valid) for at least `timeout` consecutive cycles; and once the sink has been idle that long a held word is offered with last.", "quantifier": "every timeout, every trace", "why_tests_cant": "The property ranges over every cycle-by-cycle pattern of valid/ready/data on both sides, an infinite set of schedules; the repo's tests draw a few random schedules.", "anchors": ["lambdalib/interface/stream_utils.py: LastOnTimeout"]}
{"id": "C14", "title": "LastOnTimeout holds its offered beat stable under back-pressure", "statement": "A beat offered on source and not taken is offered unchanged (including last) in the next cycle.", "quantifier": "every timeout, every trace", "why_tests_cant": "The property ranges over every cycle-by-cycle pattern of valid/ready/data on both sides, an infinite set of schedules; the repo's tests draw a few random schedules.", "anchors": ["lambdalib/interface/stream_utils.py: LastOnTimeout"]}
{"id": "C15", "title": "RoundRobin picks the next requester", "statement": "When enabled, the grant moves to the nearest requesting index cyclically after the current one; it stays put exactly when no other index requests. A continuously requesting index is granted within n-1 enabled cycles.", "quantifier": "every n >= 1, every request history", "why_tests_cant": "The property ranges over every cycle-by-cycle pattern of valid/ready/data on both sides, an infinite set of schedules; the repo's tests draw a few random schedules.", "anchors": ["lambdalib/interface/stream_utils.py: RoundRobin"]}
{"id": "C16", "title": "Arbiter never interleaves packets", "statement": "Unless the stall timeout expires, every beat transferred between the start of a packet and its last comes from the same sink.", "quantifier": "every number of sinks from two (with one nothing is transferred, C18), every timeout, every trace", "why_tests_cant": "The property ranges over every cycle-by-cycle pattern of valid/ready/data on both sides, an infinite set of schedules; the repo's tests draw a few random schedules.", "anchors": ["lambdalib/interface/stream_utils.py: Arbiter"]}
{"id": "C17", "title": "Arbiter forwards each sink's beats exactly once", "statement": "At every moment only the granted sink is acknowledged; the list of beats accepted from sink i is exactly the sublist of source transfers attributed to i, unchanged and in order.", "quantifier": "every number of sinks, every trace", "why_tests_cant": "The property ranges over every cycle-by-cycle pattern of valid/ready/data on both sides, an infinite set of schedules; the repo's tests draw a few random schedules.", "anchors": ["lambdalib/interface/stream_utils.py: Arbiter"]}
{"id": "C18", "title": "Arbiter is starvation free", "statement": "With two or more sinks, a sink that stays valid is granted after at most n-1 grants to other sinks, whatever the other sinks do, provided each of those ends its packet or stalls out. With a single sink there is nothing to arbitrate, and the arbiter passes nothing at all: the grant has no bits, and the case that connects the sink never matches.", "quantifier": "every number of sinks, every trace", "why_tests_cant": "The property ranges over every cycle-by-cycle pattern of valid/ready/data on both sides, an infinite set of schedules; the repo's tests draw a few random schedules.", "anchors": ["lambdalib/interface/stream_utils.py: Arbiter, RoundRobin"]}
{"id": "C19", "title": "FIFO wrappers carry first, last and payload together", "statement": "SyncFIFO/AsyncFIFO deliver exactly the beats accepted, in order, each with its own first, last and payload (the packing into one FIFO word is injective), hold at most depth beats (the depth asked for, in AsyncFIFO rounded up to a power of two), and are never built with a depth below 8.", "quantifier": "every payload layout width, depth, trace", "why_tests_cant": "The property ranges over every cycle-by-cycle pattern of valid/ready/data on both sides, an infinite set of schedules; the repo's tests draw a few random schedules.", "anchors": ["lambdalib/interface/stream.py: _FIFOWrapper, SyncFIFO, AsyncFIFO"]}
{"id": "C20", "title": "WaitTimer is exact", "statement": "WaitTimer(t).done is high in a cycle exactly when wait has been high in the t immediately preceding cycles (and stays high as long as wait does).", "quantifier": "every t >= 0, every wait history", "why_tests_cant": "Unbounded t and history; test uses one t and one history.", "anchors": ["lambdalib/cores/time/timer.py: WaitTimer"]}
{"id": "C21", "title": "WaitNTimer is exact", "statement": "Waiting continuously on channel i, WaitNTimer.done rises exactly ts[i] cycles after the wait started and stays high while it waits; with no wait it is low.", "quantifier": "every list of delays, every channel, every history of waits separated by an idle cycle", "why_tests_cant": "Unbounded parameters and histories.", "anchors": ["lambdalib/cores/time/timer.py: WaitNTimer"]}
{"id": "C22", "title": "PulseClock long-run rate is exact", "statement": "From any accumulator value a0, the number of pulse cycles produced in N cycles without rst is floor((a0 + N*tuning_word)/2^32): the count never drifts from N*tuning_word/2^32 by a full pulse.", "quantifier": "every tuning word < 2^32, every start value, every N", "why_tests_cant": "Drift only shows over unboundedly long runs.", "anchors": ["lambdalib/cores/time/clk.py: PulseClock"]}
{"id": "C23", "title": "PulseClock pulses last one clock cycle", "statement": "As documented, o is asserted during one clock cycle per pulse when the tuning word is at most half scale, including around rst.", "quantifier": "every rst history, every tuning word <= 2^31", "why_tests_cant": "Needs the right phase between rst and the accumulator carry.", "anchors": ["lambdalib/cores/time/clk.py: PulseClock"]}
{"id": "C24", "title": "TuningClock output toggles at the exact rate", "statement": "The number of output edges in N cycles is floor((a0+N*tw)/2^32) up to the two pipeline cycles, so the output frequency equals tw/2^33 of the system clock with no drift.", "quantifier": "every tuning word, N", "why_tests_cant": "Unbounded runs.", "anchors": ["lambdalib/cores/time/clk.py: TuningClock"]}
{"id": "C25", "title": "BlinkKeep stretches activity by exactly timeout cycles", "statement": "With duty 1.0 o is high exactly in the timeout cycles that follow any cycle with i high, i.e. o is high iff i was high within the last timeout cycles; lower duty only masks it by the 8-bit PWM, high for thresh of every 256 cycles.", "quantifier": "every timeout >= 256, duty, input history", "why_tests_cant": "Unbounded histories.", "anchors": ["lambdalib/cores/led/blink.py: BlinkKeep"]}
{"id": "C26", "title": "WS2812B emits the exact bit waveform", "statement": "For every accepted pixel the pin shows, MSB first, for every bit a high pulse of T1H (bit 1) or T0H (bit 0) cycles followed by low until T+1 cycles have passed, exactly `width` bits; after a pixel marked last the pin then stays low for at least TRST+1 cycles before the next pixel is accepted, and no pixel is accepted in between.", "quantifier": "every clock frequency with T0H,T1H <= T, every width, pixel value and schedule", "why_tests_cant": "All pixel values and frequencies.", "anchors": ["lambdalib/cores/led/ws2812b.py: WS2812B"]}
{"id": "C27", "title": "MemoryStream write/rewind/read-back", "statement": "After writing n <= depth words, rewinding and reading, the source delivers the written words in order from the first, with last exactly on the n-th, under any read back-pressure; repeated rewinds deliver the same data again.", "quantifier": "every depth >= 2, n <= depth, data, schedule, number of rewinds, buffered or not", "why_tests_cant": "The property ranges over every cycle-by-cycle pattern of valid/ready/data on both sides, an infinite set of schedules; the repo's tests draw a few random schedules.", "anchors": ["lambdalib/cores/mem/stream.py: MemoryStream"]}
{"id": "C28", "title": "MemoryStream stops after the n written words", "statement": "After n words have been read back the source goes idle until the next rewind or write.", "quantifier": "every depth, n <= depth, schedule", "why_tests_cant": "Fails only when the memory is completely full; the bundled test stops reading at n.", "anchors": ["lambdalib/cores/mem/stream.py: MemoryStream"]}
{"id": "C29", "title": "MemoryStream data read while writing is the data written", "statement": "Any word delivered by source is the word stored at its position, even when writes are interleaved with reads without a rewind.", "quantifier": "every interleaving of writes and reads", "why_tests_cant": "Needs particular interleavings.", "anchors": ["lambdalib/cores/mem/stream.py: MemoryStream"]}
{"id": "C30", "title": "MemoryStreamReader replays its init buffer", "statement": "From reset, and again after every rewind pulse whenever it comes, the source delivers the init words in order, exactly once each, last exactly on the final word, then nothing; done rises once the final word has been fetched.", "quantifier": "every non-empty init list, every rewind and ready schedule, buffered or not", "why_tests_cant": "The property ranges over every cycle-by-cycle pattern of valid/ready/data on both sides, an infinite set of schedules; the repo's tests draw a few random schedules.", "anchors": ["lambdalib/cores/mem/stream.py: MemoryStreamReader"]}
{"id": "C31", "title": "Int2Float truncates correctly", "statement": "For every 32-bit two's complement x the delivered word is the IEEE-754 binary32 encoding of x rounded toward zero (exact when |x| < 2^24).", "quantifier": "all 2^32 inputs", "why_tests_cant": "4 billion inputs; the bundled test runs seven and checks none.", "anchors": ["lambdalib/cores/float/i2f.py: Int2Float", "lambdalib/cores/float/clz.py: CLZ"]}
{"id": "C32", "title": "Int2Float is a lossless pipeline", "statement": "Delivered words are the conversions of the accepted words, in order, with their last marks, at most two in flight, for every stall pattern; an offered word is stable until taken.", "quantifier": "every trace", "why_tests_cant": "The property ranges over every cycle-by-cycle pattern of valid/ready/data on both sides, an infinite set of schedules; the repo's tests draw a few random schedules.", "anchors": ["lambdalib/cores/float/i2f.py: Int2Float"]}
{"id": "C33", "title": "CLZ counts leading zeros", "statement": "For every nonzero 32-bit d, clz = 31 - floor(log2 d).", "quantifier": "all nonzero 32-bit values", "why_tests_cant": "4 billion inputs.", "anchors": ["lambdalib/cores/float/clz.py: CLZ"]}
{"id": "C34", "title": "Multiplier products never overflow", "statement": "o.c equals the exact mathematical product of i.a and i.b for any mix of signed and unsigned shapes, beats leave in order with first/last, at most one in flight.", "quantifier": "all operand widths and signedness, all operand values, every trace", "why_tests_cant": "Infinite shapes and values.", "anchors": ["lambdalib/cores/math/multiplier.py: Multiplier"]}
{"id": "C35", "title": "IIRFilter computes its difference equation", "statement": "Each accepted sample yields exactly one output sample, in order with its first/last, equal to the fixed-point difference equation sum(b_i*x[n-i]) - sum(a_i*y[n-i]) evaluated in the accumulator width and shifted, independent of handshake timing.", "quantifier": "every coefficient set, order >= 1, width, sample sequence, schedule", "why_tests_cant": "The property ranges over every cycle-by-cycle pattern of valid/ready/data on both sides, an infinite set of schedules; the repo's tests draw a few random schedules.", "anchors": ["lambdalib/cores/filter/iir.py: IIRFilter"]}
{"id": "C36", "title": "StreamRegs writes registers in sequence", "statement": "After any trace, register k holds the payload of the latest beat whose position since the last wrap/last is k; we[k] is high exactly in the cycle after a write to k and for no other register.", "quantifier": "every length >= 1, every trace", "why_tests_cant": "The property ranges over every cycle-by-cycle pattern of valid/ready/data on both sides, an infinite set of schedules; the repo's tests draw a few random schedules.", "anchors": ["lambdalib/cores/regs.py: StreamRegs"]}
{"id": "C37", "title": "I2CRegStream expands each register write into three bytes", "statement": "The byte stream out is, for each accepted (addr, val) in order, i2c_addr<<1, addr, val with last only on val, under any back-pressure.", "quantifier": "every device address, every trace", "why_tests_cant": "The property ranges over every cycle-by-cycle pattern of valid/ready/data on both sides, an infinite set of schedules; the repo's tests draw a few random schedules.", "anchors": ["lambdalib/cores/i2c/stream.py: I2CRegStream"]}
{"id": "C38", "title": "TCA9548A done means the mux was programmed", "statement": "Every packet sent is exactly [addr<<1, ctrl byte] as writes with last on the second; whenever done is high, the most recent packet sent carried the value ctrl has in that cycle and at least one packet has been sent since reset.", "quantifier": "every ctrl history, every back-pressure schedule", "why_tests_cant": "The property ranges over every cycle-by-cycle pattern of valid/ready/data on both sides, an infinite set of schedules; the repo's tests draw a few random schedules.", "anchors": ["lambdalib/cores/i2c/tca9548a.py: TCA9548A"]}
{"id": "C39", "title": "SSD1306 wrapper frames every packet", "statement": "Without I2C errors every sink packet leaves as one I2C write packet: 0x78, control byte 0x40/0x00 for data/command, then the sink bytes, last on the last byte only.", "quantifier": "every packet list, every schedule", "why_tests_cant": "The property ranges over every cycle-by-cycle pattern of valid/ready/data on both sides, an infinite set of schedules; the repo's tests draw a few random schedules.", "anchors": ["lambdalib/cores/lcd/ssd1306.py: SSD1306_Wrapper"]}
{"id": "C40", "title": "SSD1306 wrapper skips exactly the failed packet on address NAK", "statement": "When the address byte is NAKed the remaining bytes of that sink packet are dropped and the next packet starts with a fresh address byte.", "quantifier": "every packet list, every error pattern", "why_tests_cant": "The property ranges over every cycle-by-cycle pattern of valid/ready/data on both sides, an infinite set of schedules; the repo's tests draw a few random schedules.", "anchors": ["lambdalib/cores/lcd/ssd1306.py: SSD1306_Wrapper"]}
{"id": "C41", "title": "SSD1306 powers up, initialises and clears before showing frames", "statement": "The bytes handed to the I2C layer start with the initialisation command sequence, the addressing sequence and width*height/8 zero bytes; ready rises only after that, and no user byte is accepted before; each user frame is preceded by the addressing sequence.", "quantifier": "every screen geometry, every schedule", "why_tests_cant": "The property ranges over every cycle-by-cycle pattern of valid/ready/data on both sides, an infinite set of schedules; the repo's tests draw a few random schedules.", "anchors": ["lambdalib/cores/lcd/ssd1306.py: SSD1306"]}
{"id": "C42", "title": "I2C initiator changes SDA under high SCL only for start and stop", "statement": "In every execution, while the driven SCL is high the driven SDA changes only from 1 to 0 in a start command and from 0 to 1 in a stop command.", "quantifier": "every command sequence, SCL stretching and SDA input history, every period", "why_tests_cant": "The property ranges over every cycle-by-cycle pattern of valid/ready/data on both sides, an infinite set of schedules; the repo's tests draw a few random schedules.", "anchors": ["lambdalib/cores/i2c/i2c.py: I2CInitiator"]}
{"id": "C43", "title": "I2C initiator transmits octets MSB first with nine clocks", "statement": "A write command produces exactly nine SCL pulses; at the k-th rising edge, k<8, SDA carries bit 7-k of the latched octet, SDA is released on the ninth, and ack_o is the complement of SDA sampled in the ninth high phase.", "quantifier": "all octets, all stretch/timing histories", "why_tests_cant": "The property ranges over every cycle-by-cycle pattern of valid/ready/data on both sides, an infinite set of schedules; the repo's tests draw a few random schedules.", "anchors": ["lambdalib/cores/i2c/i2c.py: I2CInitiator"]}
{"id": "C44", "title": "I2C initiator receives octets MSB first", "statement": "A read command produces nine SCL pulses with SDA released for eight; data_o is the eight sampled SDA values MSB first and the ninth bit driven is the complement of the latched ack_i.", "quantifier": "all SDA histories, all stretch histories", "why_tests_cant": "The property ranges over every cycle-by-cycle pattern of valid/ready/data on both sides, an infinite set of schedules; the repo's tests draw a few random schedules.", "anchors": ["lambdalib/cores/i2c/i2c.py: I2CInitiator"]}
{"id": "C45", "title": "I2C initiator commands finish", "statement": "With period_cyc >= 4 and no clock stretching every command returns to not-busy within a bound linear in period_cyc.", "quantifier": "every period_cyc, command, SDA history", "why_tests_cant": "Unbounded parameter; some parameter values hang.", "anchors": ["lambdalib/cores/i2c/i2c.py: I2CInitiator"]}
{"id": "C46", "title": "I2C initiator ignores strobes while busy", "statement": "As documented, start/stop/read/write strobes are ignored when busy is high.", "quantifier": "every state", "why_tests_cant": "One-cycle windows.", "anchors": ["lambdalib/cores/i2c/i2c.py: I2CInitiator"]}
{"id": "C47", "title": "I2CStream issues well formed transactions", "statement": "The command sequence given to the bus is, for accepted beats in order: start, then one write or read per beat (reads acked unless last), then stop after a last beat or a NAKed write, then a new start for the next beat; error pulses exactly on NAKed writes; a start is only made for a beat on offer.", "quantifier": "every beat sequence, ack history, schedule", "why_tests_cant": "The property ranges over every cycle-by-cycle pattern of valid/ready/data on both sides, an infinite set of schedules; the repo's tests draw a few random schedules.", "anchors": ["lambdalib/cores/i2c/stream.py: I2CStream"]}
{"id": "C48", "title": "I2CStream returns one word per read", "statement": "Each accepted read beat yields exactly one source beat, in order, with the byte read and its last flag; writes yield none.", "quantifier": "every beat sequence, schedule", "why_tests_cant": "The property ranges over every cycle-by-cycle pattern of valid/ready/data on both sides, an infinite set of schedules; the repo's tests draw a few random schedules.", "anchors": ["lambdalib/cores/i2c/stream.py: I2CStream"]}
{"id": "C49", "title": "I2CWriterStream retries NAKed transactions without losing bytes", "statement": "Every bus transaction sends a prefix of the current three sink bytes, from the first; a triple is left only after all three bytes were ACKed in one transaction; triples are sent in sink order and none is skipped or repeated after success.", "quantifier": "every NAK pattern, every schedule", "why_tests_cant": "The property ranges over every cycle-by-cycle pattern of valid/ready/data on both sides, an infinite set of schedules; the repo's tests draw a few random schedules.", "anchors": ["lambdalib/cores/i2c/stream.py: I2CWriterStream"]}
{"id": "C50", "title": "I2CWriterStream eventually retries after a NAK", "statement": "After a NAK the transaction is retried even if no further sink data arrives.", "quantifier": "every NAK pattern", "why_tests_cant": "Only the last transaction NAKed with an empty sink shows it.", "anchors": ["lambdalib/cores/i2c/stream.py: I2CWriterStream"]}
{"id": "C51", "title": "I2CProto executes write requests", "statement": "With the request bytes available, a write request (header, length, data) becomes one I2C write transaction of header then exactly length data bytes with stop after the last, followed by one status byte 0; on a NAK the rest is dropped and the status is 1.", "quantifier": "every header, length, data, NAK pattern", "why_tests_cant": "The property ranges over every cycle-by-cycle pattern of valid/ready/data on both sides, an infinite set of schedules; the repo's tests draw a few random schedules.", "anchors": ["lambdalib/cores/i2c/proto.py: I2CProto"]}
{"id": "C52", "title": "I2CProto executes read requests", "statement": "A read request yields status 0 followed by exactly length data bytes, last read NAKed by the master, or a single status 1 if the address is NAKed.", "quantifier": "every header, length >= 1, data", "why_tests_cant": "The property ranges over every cycle-by-cycle pattern of valid/ready/data on both sides, an infinite set of schedules; the repo's tests draw a few random schedules.", "anchors": ["lambdalib/cores/i2c/proto.py: I2CProto"]}
{"id": "C53", "title": "I2CProto stays in sync under any host pacing", "statement": "The response to a request does not depend on idle gaps between the request's bytes.", "quantifier": "every pacing of the sink bytes", "why_tests_cant": "The property ranges over every cycle-by-cycle pattern of valid/ready/data on both sides, an infinite set of schedules; the repo's tests draw a few random schedules.", "anchors": ["lambdalib/cores/i2c/proto.py: I2CProto"]}
{"id": "C54", "title": "Software I2CBus requests parse back", "statement": "The byte buffers produced by write_block_data/read_block_data, executed by I2CProto, perform exactly the register write / register-address write + read requested, register address big-endian, and sizes that do not fit the protocol raise instead of being sent.", "quantifier": "every address, register, data list, register width", "why_tests_cant": "Infinite inputs; no test covers software/.", "anchors": ["lambdalib/software/i2c/bus.py: I2CBus", "lambdalib/cores/i2c/proto.py: I2CProto"]}
{"id": "C55", "title": "SPI slave receives every bit once", "statement": "For every pin waveform the words pushed by the slave, each cut to its len, concatenate to exactly the bits sampled on the configured edge while selected; each word has the stage size unless chip-select ended it. No word is lost if the consumer never stalls for longer than the shortest word takes on the wire.", "quantifier": "every waveform, cpol/cpha, stage list, bus width, consumer", "why_tests_cant": "The property ranges over every cycle-by-cycle pattern of valid/ready/data on both sides, an infinite set of schedules; the repo's tests draw a few random schedules.", "anchors": ["lambdalib/cores/spi/slave.py: SPIPHYSlave"]}
{"id": "C56", "title": "SPI slave restarts its stage sequence on every frame", "statement": "Each chip-select frame starts with the first configured stage size.", "quantifier": "every frame length", "why_tests_cant": "Depends on where chip-select rises relative to word boundaries.", "anchors": ["lambdalib/cores/spi/slave.py: SPIPHYSlave"]}
{"id": "C57", "title": "SPI clock generator period", "statement": "While enabled, the SPI clock toggles every div+1 cycles, starting low; posedge/negedge strobes occur in the cycle before the corresponding clock edge.", "quantifier": "every 8-bit div, enable history", "why_tests_cant": "The property ranges over every cycle-by-cycle pattern of valid/ready/data on both sides, an infinite set of schedules; the repo's tests draw a few random schedules.", "anchors": ["lambdalib/cores/spi/clkgen.py: LiteSPIClkGen"]}
{"id": "C58", "title": "SPI master never exceeds the requested clock", "statement": "The SPI clock produced by SPIPHYMaster is at most the requested (capped) frequency.", "quantifier": "all system and SPI frequencies", "why_tests_cant": "Infinite parameters; only two are tested.", "anchors": ["lambdalib/cores/spi/master.py: SPIPHYMaster", "lambdalib/cores/spi/clkgen.py: LiteSPIClkGen"]}
{"id": "C59", "title": "SPI master transfers words MSB first", "statement": "For each accepted word of length len the master produces exactly len/width clock pulses presenting the word's bits MSB first and pushes exactly one received word made of the sampled bits, with the word's last flag.", "quantifier": "all words, lengths, divisors, schedules", "why_tests_cant": "The property ranges over every cycle-by-cycle pattern of valid/ready/data on both sides, an infinite set of schedules; the repo's tests draw a few random schedules.", "anchors": ["lambdalib/cores/spi/master.py: _LiteSPISDRPHYCore"]}
{"id": "C60", "title": "SPIStream keeps chip select for the whole packet", "statement": "cs is asserted from before the first word of a packet is accepted by the PHY until the last received word has been delivered, and every word in/out passes unchanged.", "quantifier": "every trace", "why_tests_cant": "The property ranges over every cycle-by-cycle pattern of valid/ready/data on both sides, an infinite set of schedules; the repo's tests draw a few random schedules.", "anchors": ["lambdalib/cores/spi/stream.py: SPIStream"]}
{"id": "C61", "title": "SPIWishboneBridge bursts", "statement": "A write command of count bytes performs wishbone writes of the payload words to consecutive word addresses from addr; a read command performs ceil(count/wordlen) reads and returns their data in order with last on the final word; frames with a wrong header length are ignored.", "quantifier": "every command, address, data, ack latency", "why_tests_cant": "The property ranges over every cycle-by-cycle pattern of valid/ready/data on both sides, an infinite set of schedules; the repo's tests draw a few random schedules.", "anchors": ["lambdalib/cores/spi/bridge.py: SPIWishboneBridge"]}
{"id": "C62", "title": "ULPI splitter reconstructs packets", "statement": "The stream out of the receive splitter is the received data bytes with RXCMD bytes removed and last exactly on the final byte before an RX-inactive command.", "quantifier": "every receive history", "why_tests_cant": "The property ranges over every cycle-by-cycle pattern of valid/ready/data on both sides, an infinite set of schedules; the repo's tests draw a few random schedules.", "anchors": ["lambdalib/cores/usb/ulpi.py: _Splitter"]}
{"id": "C63", "title": "ULPI sender tags packet starts", "statement": "Each transmitted packet leaves with its first byte turned into a transmit command 0x40|pid and other bytes unchanged, same framing.", "quantifier": "every packet list, schedule", "why_tests_cant": "The property ranges over every cycle-by-cycle pattern of valid/ready/data on both sides, an infinite set of schedules; the repo's tests draw a few random schedules.", "anchors": ["lambdalib/cores/usb/ulpi.py: _Sender"]}
{"id": "C64", "title": "ULPI power-on reset timing", "statement": "The PHY reset is held for exactly floor(2us*f)+1 sync cycles from reset, done rises after a further floor(4ms*f)+1 cycles and stays high forever.", "quantifier": "every clock frequency", "why_tests_cant": "Unbounded runs, any frequency.", "anchors": ["lambdalib/cores/usb/ulpi.py: _POR, _Timer"]}
{"id": "C65", "title": "DumpULPIRegs dumps every register once", "statement": "The dumper issues register reads for addresses 0..max_addr in order, one output byte each, then stops. The first read is offered right after the power-on reset has finished, each next one two cycles after the previous answer was taken, and an answer is offered as soon as it arrives.", "quantifier": "every max_addr, every PHY latency and back-pressure", "why_tests_cant": "The property ranges over every cycle-by-cycle pattern of valid/ready/data on both sides, an infinite set of schedules; the repo's tests draw a few random schedules.", "anchors": ["lambdalib/cores/usb/ulpi.py: DumpULPIRegs"]}
{"id": "C66", "title": "ECP5 PLL parameters are legal and optimal", "statement": "For every accepted input/output frequency compute() succeeds, and the chosen dividers satisfy the PFD, VCO and output range constraints and minimise (output error, VCO distance to 600 MHz, PFD distance to 200 MHz) lexicographically over all legal settings; among equally good ones the smallest input divider, then feedback divider, then output divider is taken.", "quantifier": "all whole input frequencies in 8..400 MHz, output 10..400 MHz, computed in floats", "why_tests_cant": "Continuum of frequencies.", "anchors": ["lambdalib/cores/pll/lattice_ecp5.py: PLL_LatticeECP5.Parameters"]}
{"id": "C67", "title": "Xilinx PLL parameters are legal and optimal", "statement": "For every accepted input frequency compute() succeeds and the chosen settings satisfy the VCO and output ranges and minimise (output error, VCO distance to 1200 MHz); among equally good ones the smallest input divider, then the largest multiplier, then the smallest output divider is taken.", "quantifier": "all input frequencies in 19..800 MHz, outputs 6.25..800 MHz", "why_tests_cant": "Continuum of frequencies.", "anchors": ["lambdalib/cores/pll/xilinx_7series.py: PLL_Xilinx7Series.Parameters"]}
{"id": "C68", "title": "PLL parameter objects freeze", "statement": "compute() is idempotent; after it every add_secondary_output fails and no attribute changes; at most 3 (ECP5) / 5 (7-series) secondary outputs with distinct domains are ever accepted.", "quantifier": "every sequence of calls", "why_tests_cant": "All call histories.", "anchors": ["lambdalib/cores/pll/lattice_ecp5.py: Parameters.compute, add_secondary_output", "lambdalib/cores/pll/xilinx_7series.py: Parameters.compute, add_secondary_output"]}
{"id": "C69", "title": "PLL secondary dividers are integers", "statement": "Every divider handed to the PLL primitive is an integer in the primitive's range.", "quantifier": "all frequency combinations", "why_tests_cant": "Continuum of frequencies.", "anchors": ["lambdalib/cores/pll/lattice_ecp5.py", "lambdalib/cores/pll/xilinx_7series.py"]}
{"id": "C70", "title": "DELAY_LatticeECP5 locks with the requested number of taps", "statement": "When locked is reported after a stable taps request, exactly taps move pulses have been issued since the last delay-line load.", "quantifier": "every taps value and change history", "why_tests_cant": "The property ranges over every cycle-by-cycle pattern of valid/ready/data on both sides, an infinite set of schedules; the repo's tests draw a few random schedules.", "anchors": ["lambdalib/cores/pll/lattice_ecp5.py: DELAY_LatticeECP5"]}
{"id": "C71", "title": "AsyncSerialStream delivers each received byte once", "statement": "Bytes delivered on source are exactly the bytes taken from the UART receiver, in order, one in flight; a byte offered and not taken is never overwritten. A byte leaves the sink exactly when the UART transmitter takes it, here and in AsyncSerialTXStream.", "quantifier": "every schedule", "why_tests_cant": "The property ranges over every cycle-by-cycle pattern of valid/ready/data on both sides, an infinite set of schedules; the repo's tests draw a few random schedules.", "anchors": ["lambdalib/cores/serial.py: AsyncSerialStream", "lambdalib/cores/serial.py: AsyncSerialTXStream"]}
{"id": "C72", "title": "StreamSimSender sends its list once in order", "statement": "For every ready pattern and random choices the sim sender transfers a prefix of its list in order, never drops valid or changes data before acceptance, and finishes with valid low after the last item.", "quantifier": "every list, ready pattern, random outcomes", "why_tests_cant": "All random outcomes.", "anchors": ["lambdalib/interface/stream_sim.py: StreamSimSender"]}
{"id": "C73", "title": "StreamSimReceiver records exactly the transfers", "statement": "The receiver's recorded lists are exactly the beats transferred, in order, up to `length`.", "quantifier": "every valid pattern, random outcomes", "why_tests_cant": "All random outcomes.", "anchors": ["lambdalib/interface/stream_sim.py: StreamSimReceiver"]}
{"id": "C74", "title": "Endpoint layouts are checked", "statement": "Constructing an endpoint raises ValueError exactly when a payload field name is repeated or is one of valid/ready/first/last/payload; otherwise all fields keep width and order.", "quantifier": "every layout", "why_tests_cant": "Infinite layouts.", "anchors": ["lambdalib/interface/stream.py: EndpointDescription"]}
{"id": "C75", "title": "Splitter/Merger layout validation", "statement": "Splitter rejects exactly the target layouts that use an unknown field or use a field twice; Merger rejects exactly duplicate fields across sinks.", "quantifier": "every layout list", "why_tests_cant": "Infinite layouts.", "anchors": ["lambdalib/interface/stream_utils.py: Splitter.__init__, Merger.__init__"]}
{"id": "C76", "title": "LiteX StreamRegs/RegsStream", "statement": "LiteX StreamRegs stores beat k since last into register k (byte-reversed if asked) and raises the event exactly on last; RegsStream enqueues each CSR write once while the FIFO has room.", "quantifier": "every trace", "why_tests_cant": "The property ranges over every cycle-by-cycle pattern of valid/ready/data on both sides, an infinite set of schedules; the repo's tests draw a few random schedules.", "anchors": ["lambdalib/litex/cores/regs.py: StreamRegs, RegsStream"]}
{"id": "C77", "title": "I2CRegisterInit plays its register table", "statement": "The bytes given to the writer are, per table entry, addr<<1, reg, value; with the writer exposed, user bytes are only taken after all table bytes.", "quantifier": "every register table, schedule", "why_tests_cant": "The property ranges over every cycle-by-cycle pattern of valid/ready/data on both sides, an infinite set of schedules; the repo's tests draw a few random schedules.", "anchors": ["lambdalib/cores/i2c/init.py: I2CRegisterInit"]}
{"id": "C78", "title": "ULPI transceiver terminates packets with a one cycle stop", "statement": "stp is asserted exactly in the cycle after the final byte of a packet was taken by the PHY, for one cycle, and the link never drives data while the PHY owns the bus.", "quantifier": "every pin history", "why_tests_cant": "The property ranges over every cycle-by-cycle pattern of valid/ready/data on both sides, an infinite set of schedules; the repo's tests draw a few random schedules.", "anchors": ["lambdalib/cores/usb/ulpi.py: _Transceiver"]}
{"id": "C79", "title": "DirectULPI programs the PHY before passing traffic", "statement": "Before LINK-UP exactly the bytes 0x84,0x60(last),0x8a,0x00(last) are sent to the PHY in that order and no user traffic passes. The PHY's reset pin follows the power-on reset until that is over, nothing is offered before, each set-up byte is offered as soon as the previous one is taken, except that the third waits for the configured delay.", "quantifier": "every PHY handshake history", "why_tests_cant": "The property ranges over every cycle-by-cycle pattern of valid/ready/data on both sides, an infinite set of schedules; the repo's tests draw a few random schedules.", "anchors": ["lambdalib/cores/usb/ulpi.py: DirectULPI"]}
{"id": "C80", "title": "hexdump prints every byte in order", "statement": "The dump text contains each byte as two lower-case hex digits in order, 16 per line, each line labelled with its offset.", "quantifier": "every byte list", "why_tests_cant": "Infinite inputs.", "anchors": ["lambdalib/software/utils.py: hexdump"]}
{"id": "C81", "title": "AsyncSerialStreamHalfDuplex never talks and listens at once", "statement": "The pin is driven only in transmit mode, the receiver input is forced idle while transmitting, and the direction is turned back only after the transmitter has been idle for divisor cycles.", "quantifier": "every schedule", "why_tests_cant": "The property ranges over every cycle-by-cycle pattern of valid/ready/data on both sides, an infinite set of schedules; the repo's tests draw a few random schedules.", "anchors": ["lambdalib/cores/serial.py: AsyncSerialStreamHalfDuplex"]}
{"id": "C82", "title": "Up-converter pads short packets with zeros", "statement": "When a packet ends inside an up-converted word, the unused lanes of that word are zero.", "quantifier": "every packet list, width, ratio, schedule", "why_tests_cant": "The property ranges over every cycle-by-cycle pattern of valid/ready/data on both sides, an infinite set of schedules; the repo's tests draw a few random schedules.", "anchors": ["lambdalib/interface/stream.py: _UpConverter"]}
{"id": "C83", "title": "Arbiter source is stable when its sinks are", "statement": "If every sink obeys the stream rule (a beat offered and not taken is offered again unchanged) then so does the arbiter's source.", "quantifier": "every schedule, number of sinks, timeout", "why_tests_cant": "The property ranges over every cycle-by-cycle pattern of valid/ready/data on both sides, an infinite set of schedules; the repo's tests draw a few random schedules.", "anchors": ["lambdalib/interface/stream_utils.py: Arbiter"]}
{"id": "C84", "title": "A refused MemoryStream beat is not stored", "statement": "A beat offered on the sink while rewind is high is not accepted and leaves the words read back afterwards unchanged.", "quantifier": "every depth, data, schedule, rewind pattern", "why_tests_cant": "The property ranges over every cycle-by-cycle pattern of valid/ready/data on both sides, an infinite set of schedules; the repo's tests draw a few random schedules.", "anchors": ["lambdalib/cores/mem/stream.py: MemoryStream"]}
{"id": "C85", "title": "I2C initiator start and stop commands", "statement": "After a start command SCL is released and SDA held low, after a stop both are released; a start command makes exactly one start condition if SDA was released before (or SCL was seen high with SDA seen low), a stop command exactly one stop condition if SDA was held low before (or SCL was seen high), and no other condition; with clock stretching, SDA is changed for a start or stop with SCL released only after SCL has been seen high since the command was taken.", "quantifier": "every period >= 4, command sequence, pad history", "why_tests_cant": "The property ranges over every cycle-by-cycle pattern of valid/ready/data on both sides, an infinite set of schedules; the repo's tests draw a few random schedules.", "anchors": ["lambdalib/cores/i2c/i2c.py: I2CInitiator"]}
{"id": "C86", "title": "I2CRegisterInit done means the table was sent", "statement": "Once done is high, every register of the table has been or will be written with an acknowledgment by a target that acknowledges from then on.", "quantifier": "every register table, schedule, NAK pattern", "why_tests_cant": "The property ranges over every cycle-by-cycle pattern of valid/ready/data on both sides, an infinite set of schedules; the repo's tests draw a few random schedules.", "anchors": ["lambdalib/cores/i2c/init.py: I2CRegisterInit", "lambdalib/cores/i2c/stream.py: I2CWriterStream"]}
{"id": "C87", "title": "A zero-length read returns only its status", "statement": "A read request of length 0 is answered by one status byte and no data.", "quantifier": "every header and pad history", "why_tests_cant": "The property ranges over every cycle-by-cycle pattern of valid/ready/data on both sides, an infinite set of schedules; the repo's tests draw a few random schedules.", "anchors": ["lambdalib/cores/i2c/proto.py: I2CProto"]}
{"id": "C88", "title": "I2CBus byte helpers report failure", "statement": "write_byte_data and read_byte_data tell the caller when the device refused a byte.", "quantifier": "every address, register, data, device answer", "why_tests_cant": "Infinite inputs; no test covers software/.", "anchors": ["lambdalib/software/i2c/bus.py: I2CBus.write_byte_data, I2CBus.read_byte_data"]}
{"id": "C89", "title": "SSD1306 wrapper re-addresses after any refused byte", "statement": "After a byte has been refused by the I2C layer (i2c_error), the next byte handed to it is an address byte.", "quantifier": "every packet list, schedule and error pattern", "why_tests_cant": "The property ranges over every cycle-by-cycle pattern of valid/ready/data on both sides, an infinite set of schedules; the repo's tests draw a few random schedules.", "anchors": ["lambdalib/cores/lcd/ssd1306.py: SSD1306_Wrapper"]}
{"id": "C90", "title": "SSD1306 reset restarts the display", "statement": "A cycle with reset high after start-up makes ready fall and the initialisation start again.", "quantifier": "every geometry, schedule and position of the reset pulse", "why_tests_cant": "The property ranges over every cycle-by-cycle pattern of valid/ready/data on both sides, an infinite set of schedules; the repo's tests draw a few random schedules.", "anchors": ["lambdalib/cores/lcd/ssd1306.py: SSD1306"]}
{"id": "C91", "title": "SSD1306 never withdraws an offered I2C byte", "statement": "The source stream obeys the stream rule whenever the user's stream does.", "quantifier": "every geometry, schedule and reset pattern", "why_tests_cant": "The property ranges over every cycle-by-cycle pattern of valid/ready/data on both sides, an infinite set of schedules; the repo's tests draw a few random schedules.", "anchors": ["lambdalib/cores/lcd/ssd1306.py: SSD1306"]}
{"id": "C92", "title": "SPI slave answers MSB first", "statement": "A word waiting on the slave's sink before a frame is read by the master, at its sampling edges, most significant bit first starting with the first sampling edge of the frame.", "quantifier": "every CPOL/CPHA mode, word and slow enough clock", "why_tests_cant": "The property ranges over every cycle-by-cycle pattern of valid/ready/data on both sides, an infinite set of schedules; the repo's tests draw a few random schedules.", "anchors": ["lambdalib/cores/spi/slave.py: SPIPHYSlave"]}
{"id": "C93", "title": "SPI master answers every word", "statement": "Every word accepted by SPIPHYMaster is followed, within a bounded number of cycles, by a received word, whatever the environment does.", "quantifier": "every word the layout can carry (len, width), divisor and schedule", "why_tests_cant": "The property ranges over every cycle-by-cycle pattern of valid/ready/data on both sides, an infinite set of schedules; the repo's tests draw a few random schedules.", "anchors": ["lambdalib/cores/spi/master.py: _LiteSPISDRPHYCore"]}
{"id": "C94", "title": "DirectULPI frames received packets", "statement": "After the set-up bytes have been taken by the PHY, the beats offered to the receive FIFO are the received data bytes, RXCMD bytes removed, with last exactly on the final byte before an RX-inactive command; nothing received earlier appears.", "quantifier": "every PHY history", "why_tests_cant": "The property ranges over every cycle-by-cycle pattern of valid/ready/data on both sides, an infinite set of schedules; the repo's tests draw a few random schedules.", "anchors": ["lambdalib/cores/usb/ulpi.py: DirectULPI, _Splitter, _Transceiver"]}
{"id": "C95", "title": "StreamSimConnect is lossless", "statement": "Every beat StreamSimConnect takes from a source obeying the stream rule is given to the sink exactly once, in order and remapped, with at most one beat held, and a beat offered to the sink is held until taken.", "quantifier": "every schedule and all random outcomes", "why_tests_cant": "All random outcomes.", "anchors": ["lambdalib/interface/stream_sim.py: StreamSimConnect"]}
{"id": "C96", "title": "StreamSimReceiver.verify accepts exactly the expected data", "statement": "verify(expected) passes if and only if for every expected key the recorded list equals the expected list.", "quantifier": "every expected dict and record", "why_tests_cant": "Infinite inputs.", "anchors": ["lambdalib/interface/stream_sim.py: StreamSimReceiver.verify"]}
{"id": "C97", "title": "ECP5 secondary outputs run at a legal frequency close to the request", "statement": "The frequency a secondary output really gets (VCO / divider) lies in the legal 10..400 MHz range and is the requested one.", "quantifier": "all accepted input, primary and secondary frequencies", "why_tests_cant": "Continuum of frequencies.", "anchors": ["lambdalib/cores/pll/lattice_ecp5.py: Parameters.compute"]}
{"id": "C98", "title": "ECP5 coarse phase parameters are whole numbers that encode the requested phase", "statement": "Every CPHASE parameter handed to the PLL is an integer, and the difference between a secondary output's and the primary's is the requested fraction of its period in VCO cycles.", "quantifier": "all accepted frequencies and phases", "why_tests_cant": "Continuum of frequencies.", "anchors": ["lambdalib/cores/pll/lattice_ecp5.py: Parameters.compute"]}
{"id": "C99", "title": "PLL outputs drive distinct clock domains", "statement": "No two outputs of a PLL, primary or secondary, are ever given the same clock domain.", "quantifier": "every sequence of calls", "why_tests_cant": "All call histories.", "anchors": ["lambdalib/cores/pll/lattice_ecp5.py: add_secondary_output", "lambdalib/cores/pll/xilinx_7series.py: add_secondary_output"]}
{"id": "C100", "title": "The ECP5 delay line ends at the requested position", "statement": "When locked is reported for a taps value held since the load, the delay line (loaded with the reset value of taps, plus one per pulse) is at position taps.", "quantifier": "every taps value, reset value and history", "why_tests_cant": "The property ranges over every cycle-by-cycle pattern of valid/ready/data on both sides, an infinite set of schedules; the repo's tests draw a few random schedules.", "anchors": ["lambdalib/cores/pll/lattice_ecp5.py: DELAY_LatticeECP5"]}
{"id": "C101", "title": "bfm_send sends its packets once in order", "statement": "For every ready pattern the simulation helper offers the packets one after the other, each until taken, with first on the first and last on the last, and raises exactly when a packet is refused timeout - 1 cycles in a row (at least one).", "quantifier": "every packet list, timeout and ready pattern", "why_tests_cant": "The property ranges over every cycle-by-cycle pattern of valid/ready/data on both sides, an infinite set of schedules; the repo's tests draw a few random schedules.", "anchors": ["lambdalib/interface/stream.py: Endpoint.bfm_send"]}
{"id": "C102", "title": "bfm_read returns the beats transferred", "statement": "Successive bfm_read calls return exactly the first beats offered, each taken once, ready being low outside the calls, and raise exactly after timeout cycles (at least one) without a beat.", "quantifier": "every valid pattern, timeout, number of calls", "why_tests_cant": "The property ranges over every cycle-by-cycle pattern of valid/ready/data on both sides, an infinite set of schedules; the repo's tests draw a few random schedules.", "anchors": ["lambdalib/interface/stream.py: Endpoint.bfm_read"]}
{"id": "C103", "title": "USB stream endpoints carry bytes and packet ends", "statement": "The bytes with their last flags come out of an endpoint wrapper exactly as they went in, in order, across the clock domains as well, at most 8 behind. The activity outputs are high in exactly the cycles in which a byte moves.", "quantifier": "every schedule of both clocks", "why_tests_cant": "The property ranges over every cycle-by-cycle pattern of valid/ready/data on both sides, an infinite set of schedules; the repo's tests draw a few random schedules.", "anchors": ["lambdalib/cores/usb/endpoint_cdc.py: USBSyncStreamOutEndpoint, USBAsyncStreamOutEndpoint, USBSyncStreamInEndpoint, USBAsyncStreamInEndpoint"]}
{"id": "C104", "title": "USBGenericDevice advertises exactly the endpoints it has", "statement": "For every list of endpoint sizes, the descriptors list exactly the endpoints instantiated (number k+1 for pair k, size 0 meaning none, connected to stream k), each once, under distinct legal USB addresses.", "quantifier": "every size list", "why_tests_cant": "Infinite size lists.", "anchors": ["lambdalib/cores/usb/generic_device.py: create_descriptors, elaborate"]}
{"id": "C105", "title": "UTMITranslator resets the PHY for 2 us", "statement": "After power-up the PHY reset is asserted for 120 cycles of 60 MHz (2 us) and never again, and the data bus is driven exactly while the PHY does not own it.", "quantifier": "every execution", "why_tests_cant": "The property ranges over every cycle-by-cycle pattern of valid/ready/data on both sides, an infinite set of schedules; the repo's tests draw a few random schedules.", "anchors": ["lambdalib/cores/usb/utmi.py: UTMITranslator"]}
{"id": "C106", "title": "USBDevice opens the idx-th matching device", "statement": "The device opened is the idx-th in enumeration order of those with the given identifiers; an error is raised exactly when there are not that many.", "quantifier": "every device list", "why_tests_cant": "Infinite lists.", "anchors": ["lambdalib/software/usb/device.py: USBDevice.__init__"]}
{"id": "C107", "title": "First marks survive LastOnTimeout and Int2Float", "statement": "Each beat delivered by LastOnTimeout or Int2Float carries the first mark of the sink beat it came from.", "quantifier": "every input and backpressure schedule", "why_tests_cant": "The property ranges over every cycle-by-cycle pattern of valid/ready/data on both sides, an infinite set of schedules; the repo's tests draw a few random schedules.", "anchors": ["lambdalib/interface/stream_utils.py: LastOnTimeout", "lambdalib/cores/float/i2f.py: Int2Float"]}
{"id": "C108", "title": "The display core starts and keeps taking bytes", "statement": "After a start with no further reset, the SSD1306 core becomes ready for user bytes within 310 plus screen-size cycles in which the I2C side is ready, whatever is acknowledged; once ready, an offered user byte is taken within 40 such cycles.", "quantifier": "every screen size, every schedule of the I2C side and of the user", "why_tests_cant": "Bounded response over every schedule and every acknowledgement pattern.", "anchors": ["lambdalib/cores/lcd/ssd1306.py: SSD1306"]}
{"id": "C109", "title": "The I2C stream master always answers", "statement": "If a beat is kept offered, read bytes are taken and SCL is not stretched, a beat is accepted within eight command times; the byte of an accepted read is offered within one command time; a transfer that closes the transaction is followed by a stop at once.", "quantifier": "every period from 4 up, every schedule and history", "why_tests_cant": "Bounded response from every reachable state.", "anchors": ["lambdalib/cores/i2c/stream.py: I2CStream"]}
{"id": "C110", "title": "The I2C protocol bridge never gets stuck", "statement": "While the host keeps offering bytes and taking bytes, and SCL is not stretched, a byte moves between host and bridge at least once every 18 command times, whatever the bytes are and whatever the target acknowledges.", "quantifier": "every period from 4 up, every byte stream, every target behaviour", "why_tests_cant": "Absence of deadlock from every reachable state.", "anchors": ["lambdalib/cores/i2c/proto.py: I2CProto"]}
{"id": "C111", "title": "The I2C writer keeps taking bytes", "statement": "While a byte is kept offered and SCL is not stretched, the I2C writer takes a byte within 18 command times unless a write is refused by the target.", "quantifier": "every period from 4 up, every history including refused writes and retries", "why_tests_cant": "Bounded response from every reachable state.", "anchors": ["lambdalib/cores/i2c/stream.py: I2CWriterStream"]}
{"id": "C112", "title": "Register initialisation completes", "statement": "When no write is refused and SCL is not stretched, done is high within 19 command times per byte of the register table plus one.", "quantifier": "every non-empty register table, address, period from 4 up, and input schedule", "why_tests_cant": "Ranges over table sizes and schedules.", "anchors": ["lambdalib/cores/i2c/init.py: I2CRegisterInit"]}
{"id": "C113", "title": "The last byte read and the last acknowledge stay readable", "statement": "data_o changes only while the read asked for last is under way, and ack_o only while the write asked for last is under way: between commands, and during commands of other kinds, both keep their values.", "quantifier": "every period, command sequence and bus behaviour", "why_tests_cant": "The property ranges over every cycle-by-cycle pattern of valid/ready/data on both sides, an infinite set of schedules; the repo's tests draw a few random schedules.", "anchors": ["lambdalib/cores/i2c/i2c.py: I2CInitiator"]}
{"id": "C114", "title": "SPI master keeps answering and drives exactly as asked", "statement": "The output enable of the data lines is that of the last accepted word (released before the first); and while chip select is low, legal words kept on offer and received words taken, a word is accepted within 512*(divisor+1)+21 cycles.", "quantifier": "every divisor, word sequence, schedule, pin history", "why_tests_cant": "The property ranges over every cycle-by-cycle pattern of valid/ready/data on both sides, an infinite set of schedules; the repo's tests draw a few random schedules.", "anchors": ["lambdalib/cores/spi/master.py: _LiteSPISDRPHYCore"]}
{"id": "C115", "title": "IIR filter with a shared multiplier and changing coefficients", "statement": "With an external multiplier that returns the product of every pair it accepts, in order and with its last mark, after any delay and with any back-pressure, and coefficients that change only between samples, the filter answers every accepted sample once, in order, with its marks, by the difference equation evaluated with the coefficients in force for that sample. It offers 2*size-1 pairs per sample, the final one marked last, holds each until taken, and offers the output two cycles after the product marked last. With the internal multiplier it behaves cycle for cycle as the plain filter.", "quantifier": "every size from 2, widths, shift, coefficient history, multiplier latency and readiness, input schedule", "why_tests_cant": "The property ranges over every cycle-by-cycle pattern of valid/ready/data on both sides, an infinite set of schedules; the repo's tests draw a few random schedules.", "anchors": ["lambdalib/cores/filter/iir.py: IIRFilter"]}
{"id": "C116", "title": "What the user sends is what the screen shows", "statement": "Take an SSD1306 panel with any settings and any RAM contents, a display driver of any supported size (128x64, 128x32, 96x16, 64x48, 64x32), started once, whose I2C transfers succeed. Whenever ready is high the panel is on, set up for its size and wiring, has received no unknown command, and its visible RAM is the picture made of the frames accepted so far over a blank screen: byte k of a frame at column k mod width and page k / width. RAM outside the visible window is untouched.", "quantifier": "every supported size, panel state, frame sequence including short frames, I2C and user schedule", "why_tests_cant": "The property ranges over every cycle-by-cycle pattern of valid/ready/data on both sides, an infinite set of schedules; the repo's tests draw a few random schedules.", "anchors": ["lambdalib/cores/lcd/ssd1306.py: SSD1306, SSD1306_Wrapper"]}
{"id": "C117", "title": "An SPI host and an SPI slave joined by their pins exchange words faithfully", "statement": "Join the host side of the SPI bridge (word stream to SPI master) to an SPI slave of the same word width and number of lines, sampling on rising edges, that runs on its own clock and sees every value the pins take. The words the slave receives are exactly the words given to the host, in order, each whole; once the host has released its chip select and the slave has seen it, none is missing. The chip select is asserted through every packet, is released only when every word has been answered and the packet is complete, and is released between any two packets.", "quantifier": "every word width up to 256, line count 1, 2, 4, 8, divisor, chip-select delay, word and packet schedule, back-pressure on both sides, relation between the two clocks", "why_tests_cant": "The property ranges over every cycle-by-cycle pattern of valid/ready/data on both sides, an infinite set of schedules; the repo's tests draw a few random schedules.", "anchors": ["examples/spi_bridge.py: SPIMasterBridge", "lambdalib/cores/spi/stream.py: SPIStream", "lambdalib/cores/spi/master.py: SPIPHYMaster", "lambdalib/cores/spi/slave.py: SPISlave"]}
{"id": "C118", "title": "A USB endpoint's recv returns its own transfer, and send keeps order", "statement": "With several endpoint objects of one device used by one thread: an asynchronous recv that returns gives exactly the bytes delivered by the transfer it asked for, and does not return before that transfer has ended, whatever other transfers end meanwhile (provided no earlier recv was interrupted by an exception). Every send of bytes asks for one transfer of exactly these bytes, in order of the calls; a send with a value that is not a byte asks for none.", "quantifier": "every program of send and recv calls, every order and grouping in which the USB stack reports the ends of transfers", "why_tests_cant": "The property ranges over every cycle-by-cycle pattern of valid/ready/data on both sides, an infinite set of schedules; the repo's tests draw a few random schedules.", "anchors": ["lambdalib/software/usb/device.py: USBEndpoint.send, USBEndpoint.recv, USBEndpoint.exchange, USBEndpoint.cb_rd, USBEndpoint.cb_wr"]}
{"id": "C119", "title": "No byte delivered by a USB device is lost", "statement": "The bytes returned by the calls of recv on an endpoint are exactly the bytes the device delivered for it, in order, also when calls time out or are interrupted.", "quantifier": "every program of send and recv calls, every transfer outcome, interruption point", "why_tests_cant": "The property ranges over every cycle-by-cycle pattern of valid/ready/data on both sides, an infinite set of schedules; the repo's tests draw a few random schedules.", "anchors": ["lambdalib/software/usb/device.py: USBEndpoint.recv, USBEndpoint.cb_rd"]}
{"id": "C120", "title": "A failed USB transfer is reported to the caller", "statement": "A send or recv whose transfer fails raises an exception.", "quantifier": "every transfer outcome", "why_tests_cant": "The property ranges over every cycle-by-cycle pattern of valid/ready/data on both sides, an infinite set of schedules; the repo's tests draw a few random schedules.", "anchors": ["lambdalib/software/usb/device.py: USBEndpoint.send, USBEndpoint.recv"]}
{"id": "C121", "title": "I2C bus timing", "statement": "On the lines driven by the I2C initiator any two changes are at least period/4 + 1 system cycles apart and the two lines never change together, SCL stays high and low for at least 2 (period/4 + 1) cycles, and two rises of SCL are more than period cycles apart: with the period computed from the system clock and the I2C frequency the bus is never faster than asked for, whatever the commands, device and clock stretching. A write or read takes at least 36 (period/4 + 1) cycles. When nobody holds the clock and period >= 4, the SCL cycle within a command is exactly 4 (period/4 + 1) cycles and the byte time is exact.", "quantifier": "every period, configuration, command and bus history, every pair of line changes", "why_tests_cant": "The property ranges over every cycle-by-cycle pattern of valid/ready/data on both sides, an infinite set of schedules; the repo's tests draw a few random schedules.", "anchors": ["lambdalib/cores/i2c/i2c.py: I2CInitiator.elaborate", "lambdalib/cores/i2c/proto.py: I2CProto.elaborate"]}
{"id": "C122", "title": "UART to I2C bridge end to end", "statement": "With the UART to I2C bridge example, every request a host sends over the UART is carried out on the I2C bus exactly once and answered in order: the exchanges seen at the UART are the transactions on the bus, whatever the spacing of the bytes. Bytes are neither lost nor changed between the UART and the I2C core: at most 33 bytes wait on the way in and 32 on the way out, and the receiver is refused only with 33 waiting.", "quantifier": "every period and configuration, every arrival pattern of bytes, back-pressure of the transmitter and bus behaviour", "why_tests_cant": "The property ranges over every cycle-by-cycle pattern of valid/ready/data on both sides, an infinite set of schedules; the repo's tests draw a few random schedules.", "anchors": ["examples/i2c_bridge.py: Top.elaborate", "lambdalib/cores/i2c/proto.py: I2CProto.elaborate", "lambdalib/cores/serial.py: AsyncSerialStream.elaborate", "lambdalib/interface/stream.py: SyncFIFO"]}
{"id": "C123", "title": "I2CBus programs end to end", "statement": "A program of I2CBus calls (block and byte reads and writes, discover) with arguments that fit, run against the I2C core or over the UART bridge, is carried out on the I2C bus call by call, in order and exactly once, and each call returns what happened on the bus: a write returns the number of bytes if the address, the register and every byte were acknowledged and None if one was refused, at which the write stopped; a read returns the bytes read from the bus, or None if the register write or the address was refused; discover lists exactly the addresses that acknowledged. No answer byte is left unread.", "quantifier": "every program, register width, period and configuration, every bus behaviour and byte timing the core accepts", "why_tests_cant": "The property ranges over every cycle-by-cycle pattern of valid/ready/data on both sides, an infinite set of schedules; the repo's tests draw a few random schedules.", "anchors": ["lambdalib/software/i2c/bus.py: I2CBus", "lambdalib/cores/i2c/proto.py: I2CProto.elaborate", "examples/i2c_bridge.py: Top.elaborate"]}
{"id": "C124", "title": "Cycle counts computed from frequencies are the intended ones", "statement": "The whole numbers the cores compute with floats from frequencies given in Hz are exactly the ones meant: the I2C period and UART divisor are the whole system cycles in one period; the SPI divider is the smallest that keeps the clock at or below the request and the chip-select delay the fewest cycles that cover the given SPI periods; the ULPI and UTMI timers and the WS2812B timings are the whole cycles in their times; tuning words are the 32-bit fraction of the frequency ratio rounded down; the blink threshold is the duty cycle in 256ths rounded down.", "quantifier": "every whole-number frequency in range", "why_tests_cant": "The property ranges over every cycle-by-cycle pattern of valid/ready/data on both sides, an infinite set of schedules; the repo's tests draw a few random schedules.", "anchors": ["lambdalib/cores/led/ws2812b.py: WS2812B.elaborate", "lambdalib/cores/spi/master.py: SPIPHYMaster", "lambdalib/cores/time/clk.py: PulseClock, TuningClock", "lambdalib/cores/usb/ulpi.py: _Timer", "lambdalib/cores/usb/utmi.py: UTMITranslator", "lambdalib/cores/i2c/proto.py: I2CProto", "lambdalib/cores/led/blink.py: BlinkKeep", "examples/i2c_bridge.py: Top"]}
{"id": "C125", "title": "IIR coefficients in fixed point are the coefficients", "statement": "Whatever coefficients the design yields, every coefficient register holds its coefficient (negated for the denominator) times 2^shift, cut towards zero, less than one unit off and without wrapping; the shift is the largest at which all of them fit; and each output is the real difference equation evaluated on the stored samples, up to less than one output unit plus one coefficient unit per sample used, unless it is too large for the output.", "quantifier": "every list of coefficients (floats), coefficient width, sample width, every history of samples", "why_tests_cant": "The property ranges over every cycle-by-cycle pattern of valid/ready/data on both sides, an infinite set of schedules; the repo's tests draw a few random schedules.", "anchors": ["lambdalib/cores/filter/iir.py: IIRFilter"]}
{"id": "C126", "title": "Writes sent over SPI arrive on the Wishbone bus", "statement": "Join an SPI slave to the SPI-Wishbone bridge. The bus operations are those asked for by the words received on the pins, in order, each once, with the address and data sent; received words wait at most 8 at a time, and none is lost as long as the bus acknowledges a write within the time a word takes on the wire. A host that sends only write commands therefore has every write carried out exactly once and in order, and nothing else happens on the bus.", "quantifier": "every history of words handed to the host, every pair of clocks, every pin waveform, every pattern of bus acknowledgements within the limit, word width, number of lines, address width", "why_tests_cant": "The property ranges over every cycle-by-cycle pattern of valid/ready/data on both sides, an infinite set of schedules; the repo's tests draw a few random schedules.", "anchors": ["lambdalib/cores/spi/bridge.py: SPIWishboneBridge", "lambdalib/cores/spi/slave.py: SPIPHYSlave", "lambdalib/cores/spi/master.py: SPIPHYMaster", "lambdalib/cores/spi/stream.py: SPIStream"]}
{"id": "C127", "title": "Reads over SPI return the data and leave later commands alone", "statement": "A host that reads through the SPI-Wishbone bridge clocks one dummy word for every word read: the word read on the bus comes out on the pins most significant bit first, the dummy words mean nothing, and the commands sent afterwards are carried out as sent.", "quantifier": "every history of words handed to the host, every pin waveform, every pattern of bus acknowledgements", "why_tests_cant": "The property ranges over every cycle-by-cycle pattern of valid/ready/data on both sides, an infinite set of schedules; the repo's tests draw a few random schedules.", "anchors": ["lambdalib/cores/spi/bridge.py: SPIWishboneBridge", "lambdalib/cores/spi/slave.py: SPIPHYSlave"]}
{"id": "C128", "title": "UTMI receive: packets from the PHY reach the device core unchanged", "statement": "Behind UTMITranslator the device core sees exactly the bytes the ULPI PHY sends, each with rx_valid one cycle later, and the stretches of rx_active are exactly the PHY's packets, with those bytes; line_state repeats the last status byte.", "quantifier": "every sequence of dir, nxt and data from the PHY, whatever the core does", "why_tests_cant": "The property ranges over every cycle-by-cycle pattern of valid/ready/data on both sides, an infinite set of schedules; the repo's tests draw a few random schedules.", "anchors": ["lambdalib/cores/usb/utmi.py: UTMITranslator", "lambdalib/cores/usb/ulpi_wrapper.v: ulpi_wrapper"]}
{"id": "C129", "title": "UTMI receive: rx_error is about the packet being received", "statement": "rx_error is high during a packet only if the PHY reported an error in that packet.", "quantifier": "every sequence of dir, nxt and data from the PHY", "why_tests_cant": "The property ranges over every cycle-by-cycle pattern of valid/ready/data on both sides, an infinite set of schedules; the repo's tests draw a few random schedules.", "anchors": ["lambdalib/cores/usb/ulpi_wrapper.v: ulpi_wrapper"]}
{"id": "C130", "title": "UTMI transmit: every byte handed over is taken by the PHY, in order", "statement": "The bytes the device core hands over with tx_valid and tx_ready are taken by the ULPI PHY in order, none lost, repeated or invented, at most three are under way, and all of them are taken and the packet stopped once the PHY leaves the bus to the link and takes what it is offered.", "quantifier": "every PHY that keeps nxt low when it gives the bus back, every behaviour of the core", "why_tests_cant": "The property ranges over every cycle-by-cycle pattern of valid/ready/data on both sides, an infinite set of schedules; the repo's tests draw a few random schedules.", "anchors": ["lambdalib/cores/usb/utmi.py: UTMITranslator", "lambdalib/cores/usb/ulpi_wrapper.v: ulpi_wrapper"]}
{"id": "C131", "title": "UTMI transmit: each packet of the core is one packet on the ULPI bus", "statement": "Each stretch of tx_valid is sent as one packet: a transmit command with its identifier, its other bytes, and stp.", "quantifier": "every PHY that keeps nxt low when it gives the bus back, every behaviour of the core", "why_tests_cant": "The property ranges over every cycle-by-cycle pattern of valid/ready/data on both sides, an infinite set of schedules; the repo's tests draw a few random schedules.", "anchors": ["lambdalib/cores/usb/ulpi_wrapper.v: ulpi_wrapper"]}
{"id": "C132", "title": "The PHY is configured as the UTMI inputs say", "statement": "After op_mode, xcvr_select, term_select or the pull-downs change, the corresponding PHY register is written with the new settings, also when the PHY interrupts the write; the reset bit goes with the first function control write only and no other register is written.", "quantifier": "every history of settings, every PHY that keeps nxt low when it gives the bus back", "why_tests_cant": "The property ranges over every cycle-by-cycle pattern of valid/ready/data on both sides, an infinite set of schedules; the repo's tests draw a few random schedules.", "anchors": ["lambdalib/cores/usb/ulpi_wrapper.v: ulpi_wrapper"]}
{"id": "C133", "title": "The link keeps to the ULPI protocol", "statement": "A value on the bus stays until the PHY takes it or the bus; stp comes with zero on the bus, always after a register value was taken and otherwise only when the last byte handed over was taken (that every packet is stopped: C130, C131); and for seven cycles after receiving the core cannot hand over a byte.", "quantifier": "every PHY, every behaviour of the core", "why_tests_cant": "The property ranges over every cycle-by-cycle pattern of valid/ready/data on both sides, an infinite set of schedules; the repo's tests draw a few random schedules.", "anchors": ["lambdalib/cores/usb/ulpi_wrapper.v: ulpi_wrapper"]}
{"id": "C134", "title": "7-series phases are the requested ones", "statement": "The phase parameter of every secondary output lies in [0, 360) and equals the phase asked for, a full turn becoming no turn.", "quantifier": "every sequence of calls, every accepted phase", "why_tests_cant": "Continuum of phases.", "anchors": ["lambdalib/cores/pll/xilinx_7series.py: PLL_Xilinx7Series.Parameters.compute"]}
{"id": "C135", "title": "Converter between clock domains", "statement": "A Converter whose two sides run on unrelated clocks delivers every accepted word, repacked to the other width, in order, none lost or repeated, however the edges of the two clocks fall and in either order of its two stages.", "quantifier": "every interleaving of clock edges, every delay of the FIFO's pointers, every width and ratio, both bit orders, buffered or not", "why_tests_cant": "Interleavings of two clocks are unbounded and chosen by the hardware.", "anchors": ["lambdalib/interface/stream.py: Converter"]}
{"id": "C136", "title": "Pipelines of stream buffers are buffers", "statement": "Buffering stages (PipeValid, PipeReady, SyncFIFO, identity) connected in series in any number and order deliver every beat once, in order, unchanged; hold at most the sum of their places; keep an offered beat until taken; offer a held beat after at most one cycle per stage (two for a buffered FIFO); accept or pass on a beat when empty; sustain one beat per cycle; and, with a reader that is always ready, delay every beat by exactly the sum of the latencies of the stages.", "quantifier": "every list of stages, every schedule", "why_tests_cant": "Pipelines of every length and every schedule.", "anchors": ["lambdalib/interface/stream.py: PipeValid, PipeReady, SyncFIFO, _IdentityConverter", "lambdalib/interface/stream.py: Endpoint"]}
{"id": "C137", "title": "The SPI host never gets stuck", "statement": "An SPI host (SPIStream driving SPIPHYMaster) whose returned words are always taken: (a) a word offered and kept on data_sink is accepted within a bounded time, whatever happened before and wherever the host is in a packet; (b) once the last word of a packet has been accepted, every word of the packet is answered within a bounded time, and the chip select is then released.", "quantifier": "every word width up to 256, bus width 1/2/4/8, divisor, chip select delay, history of offers, stalls and pin values", "why_tests_cant": "A test sees one progress path; a hang would be in some combination of FIFO level, clock phase and chip select timer that it does not visit.", "anchors": ["lambdalib/cores/spi/stream.py: SPIStream", "lambdalib/cores/spi/master.py: SPIPHYMaster, _LiteSPISDRPHYCore", "examples/spi_bridge.py: SPIMasterBridge"]}
{"id": "C138", "title": "A reset puts a core back to its power-up behaviour", "statement": "When the reset of the clock domain is raised at any moment of any execution and held for two cycles or more, the core afterwards behaves as if it had just been powered up: nothing it was doing, and no data it held, before the reset shows in its outputs.", "quantifier": "every history, every moment and length (two cycles or more) of the reset, every input during and after it, every core", "why_tests_cant": "A test resets at a few moments; registers without reset show only for particular histories.", "anchors": ["lambdalib/cores/i2c/i2c.py: I2CInitiator", "lambdalib/cores/spi/master.py: _LiteSPISDRPHYCore", "lambdalib/cores/spi/slave.py: SPIPHYSlave", "lambdalib/cores/mem/stream.py: MemoryStream", "lambdalib/cores/time/clk.py: PulseClock", "lambdalib/cores/serial.py: AsyncSerialStreamHalfDuplex", "examples/crg.py"]}
{"id": "C139", "title": "An SPI host exchanges one word for each word sent", "statement": "An SPI host (SPIStream driving SPIPHYMaster) puts each word given to it on the data lines exactly once, most significant bits first, in one run of clock pulses, all with chip select asserted, and returns one word for it with the same last flag, made of the data lines read at the rising edges of the same pulses. At most one word is under way and nine more are held; when chip select is high everything sent has been exchanged and returned, and there were no other pulses.", "quantifier": "every word width that is a multiple of the number of lines (1, 2, 4, 8) up to 256, divider, chip-select delay, and every history of words, line values and back-pressure", "why_tests_cant": "The property ranges over every cycle-by-cycle pattern of valid/ready/data on both sides, an infinite set of schedules; the repo's tests draw a few random schedules.", "anchors": ["lambdalib/cores/spi/stream.py:SPIStream", "lambdalib/cores/spi/master.py:_LiteSPISDRPHYCore", "examples/spi_bridge.py:SPIMasterBridge"]}
{"id": "C140", "title": "What the SPI host board receives from the SPI slave board", "statement": "Join the two boards of the SPI bridge example by their wires. In each frame of the host (chip select low), with a slave that has words to answer throughout, the words the host returns are the words the slave took from its stream during that frame, in order. (False: they are read exactly one bit late.)", "quantifier": "every word width up to 256, divider of at least 2, chip-select delay longer than half an SPI clock, CPOL = CPHA, and every history before and after the frame", "why_tests_cant": "The property ranges over every cycle-by-cycle pattern of valid/ready/data on both sides, an infinite set of schedules; the repo's tests draw a few random schedules.", "anchors": ["examples/spi_bridge.py:SPIMasterBridge", "examples/spi_bridge.py:SPISlaveBridge", "lambdalib/cores/spi/slave.py:SPIPHYSlave", "lambdalib/cores/spi/stream.py:SPIStream"]}
{"id": "C141", "title": "The level attribute of a FIFO tells how many beats it holds", "statement": "SyncFIFO.level is in every cycle the number of beats accepted and not yet delivered, buffered or not. AsyncFIFO.r_level never exceeds that number, equals it when the reader's view of the writer is up to date, and is zero exactly when source.valid is low; an AsyncFIFO holds at most the depth asked for, at least 8, rounded up to a power of two.", "quantifier": "every payload width, depth, history of handshakes, interleaving of the two clocks and delay of the pointer synchronisers", "why_tests_cant": "The property ranges over every cycle-by-cycle pattern of valid/ready/data on both sides, an infinite set of schedules; the repo's tests draw a few random schedules.", "anchors": ["lambdalib/interface/stream.py:SyncFIFO", "lambdalib/interface/stream.py:AsyncFIFO"]}
{"id": "C142", "title": "DirectULPI delivers every received packet to its user", "statement": "Every packet received from the PHY after the set-up comes out of DirectULPI's source, in the user's clock domain, byte for byte, in order and with its last flag, however slowly the user reads.", "quantifier": "every order of the edges of the two clocks, every behaviour of the PHY, every reading pattern, every delay with which the FIFO pointers cross the domains, every depth", "why_tests_cant": "The property ranges over every cycle-by-cycle pattern of valid/ready/data on both sides, an infinite set of schedules; the repo's tests draw a few random schedules.", "anchors": ["lambdalib/cores/usb/ulpi.py: DirectULPI, _Splitter, _Transceiver", "lambdalib/interface/stream.py: AsyncFIFO"]}
{"id": "C143", "title": "A packet given to DirectULPI appears on the ULPI bus whole, once and framed", "statement": "The bytes given to DirectULPI's sink are, after the four set-up bytes, exactly the bytes the PHY takes: in order, none added, the first byte of each packet replaced by a transmit command with its PID, each packet in one piece.", "quantifier": "every order of the edges of the two clocks, every behaviour of the PHY, every pattern of the user, every delay with which the FIFO pointers cross the domains, every depth", "why_tests_cant": "The property ranges over every cycle-by-cycle pattern of valid/ready/data on both sides, an infinite set of schedules; the repo's tests draw a few random schedules.", "anchors": ["lambdalib/cores/usb/ulpi.py: DirectULPI, _Sender, _Transceiver", "lambdalib/interface/stream.py: AsyncFIFO"]}
{"id": "C144", "title": "DirectULPI brings the link up", "statement": "The PHY's reset pin is high during the first 2 us (n2 + 1 cycles of the user's clock) and low ever after; for the next 4 ms (n4 + 1 cycles) nothing is put on the bus; after that, however the two clocks run, the four set-up bytes have been sent once the PHY's clock has had one edge, the PHY has taken two bytes, nt + 1 edges have passed and the PHY has taken two more bytes.", "quantifier": "every order of the edges of the two clocks, every behaviour of the PHY and of the user, every count below 2^30", "why_tests_cant": "The property ranges over every cycle-by-cycle pattern of valid/ready/data on both sides, an infinite set of schedules; the repo's tests draw a few random schedules.", "anchors": ["lambdalib/cores/usb/ulpi.py: DirectULPI, _POR, _Timer"]}
{"id": "C145", "title": "Offered beats stay until taken", "statement": "What a core offers on a stream (valid high) stays on offer, unchanged, until the reader is ready: for Stitcher, LastInserter, every source of Splitter and both directions of SPIStream when their own input obeys the same rule; for the asynchronous FIFO and DirectULPI between consecutive edges of the reader's clock; for SPIMaster, SPISlave, I2CProto and RegsStream always; for MemoryStream and MemoryStreamReader unless written or rewound; for SPIWishboneBridge.", "quantifier": "every input history and every schedule of ready signals (every order of clock edges for the two-clock cores)", "why_tests_cant": "The property ranges over every cycle-by-cycle pattern of valid/ready/data on both sides, an infinite set of schedules; the repo's tests draw a few random schedules.", "anchors": ["lambdalib/interface/stream_utils.py: Stitcher, LastInserter, Splitter", "lambdalib/interface/stream.py: AsyncFIFO", "lambdalib/cores/mem/stream.py", "lambdalib/cores/spi/master.py", "lambdalib/cores/spi/slave.py", "lambdalib/cores/spi/stream.py", "lambdalib/cores/spi/bridge.py", "lambdalib/cores/i2c/proto.py", "lambdalib/cores/usb/ulpi.py: DirectULPI", "lambdalib/litex/cores/regs.py: RegsStream"]}
{"id": "C146", "title": "Cores wait for the PLL and start anew after any loss of lock", "statement": "On the example boards every core in the clock domain sync is in reset as long as the PLL is not locked or the reset button is pressed and at the next two edges of the clock; after that it behaves as if it had just been powered up, however short the loss of lock was, whatever it was doing. The same for the domain usb of boards without ULPI.", "quantifier": "every core that two cycles of reset make as new, every history of lock, button and clock edges", "why_tests_cant": "The property ranges over every cycle-by-cycle pattern of valid/ready/data on both sides, an infinite set of schedules; the repo's tests draw a few random schedules.", "anchors": ["examples/crg.py: _CRG.elaborate"]}
{"id": "C147", "title": "What the host board is given reaches the slave board's user", "statement": "Join the SPI master and the SPI slave by their wires, as the two boards of the SPI bridge example are, in a mode with CPOL = CPHA. At every moment the words the slave has handed to its user are exactly the first of the words the master was given to send, in order and unaltered, and at most eight are waiting inside the slave, provided its user never leaves a word waiting for two clock cycles per bit of a word. Once the pins have been quiet with the chip select high for five cycles, a user that is always ready has been given exactly the words the master was given.", "quantifier": "every word width up to 256, clock divisor, chip select delay, sequence of words, framing and pace of the users on both sides", "why_tests_cant": "The property ranges over every cycle-by-cycle pattern of valid/ready/data on both sides, an infinite set of schedules; the repo's tests draw a few random schedules.", "anchors": ["examples/spi_bridge.py:SPIMasterBridge", "examples/spi_bridge.py:SPISlaveBridge", "lambdalib/cores/spi/slave.py:SPIPHYSlave", "lambdalib/cores/spi/stream.py:SPIStream"]}
{"id": "C148", "title": "A program that uses I2CBus over the UART bridge", "statement": "Whatever a program on the PC does with I2CBus over the UART bridge (each call may depend on the results before it) and whatever the devices answer: every call that has returned made exactly the transaction on the I2C bus that it stands for, in the order of the calls, and returned what happened there (the number of bytes if all were acknowledged, the bytes read, None if a byte was refused, present or absent for a probe); once the program has ended there was nothing else on the bus.", "quantifier": "every program (adaptive), register width, period and configuration, arrival times of the bytes, back-pressure, bus and device behaviour", "why_tests_cant": "Infinitely many programs, schedules and device behaviours; no test joins software and gateware.", "anchors": ["lambdalib/software/i2c/bus.py: I2CBus.write_block_data, I2CBus.read_block_data, I2CBus.discover", "examples/i2c_bridge.py: Top.elaborate", "examples/i2c_bridge_soft.py", "lambdalib/cores/i2c/proto.py: I2CProto.elaborate"]}
{"id": "C149", "title": "A PLL drives each domain with the clock that was asked for it", "statement": "Whatever sequence of add_secondary_output and compute calls was made on the parameters, the arguments PLL_LatticeECP5 and PLL_Xilinx7Series hand to the primitive close its feedback loop, take the clock (and, unless told otherwise, the reset) of the input domain, clock the output domain at the legal frequency closest to the requested one, clock the n-th accepted secondary domain from the n-th secondary port at its own frequency (ECP5: below twice the request and not under it, and exact when the VCO is a multiple; 7 series: the request) and phase, and leave the other ports off.", "quantifier": "all input and output frequencies in range, all call sequences, both feedback paths, with and without reset", "why_tests_cant": "The arguments are strings and floats that only the vendor tools look at: no simulation runs them, and a port swapped for one set of outputs shows only on hardware.", "anchors": ["lambdalib/cores/pll/lattice_ecp5.py:PLL_LatticeECP5.elaborate", "lambdalib/cores/pll/xilinx_7series.py:PLL_Xilinx7Series.elaborate"]}
{"id": "C150", "title": "A program that uses I2CBus over the UART bridge comes to its end", "statement": "If the UART works (a byte the program has written is offered to the bridge sooner or later, and the transmitter is free time and again) and no device holds the I2C clock, every program on the PC that uses I2CBus over the bridge comes to its end, whatever the devices answer; no call waits for ever for a byte from the bridge.", "quantifier": "every program (adaptive), register width, period >= 4, infinite run, arrival times, back-pressure, device behaviour", "why_tests_cant": "Liveness over infinite runs of software and gateware together: no finite test shows that a call never hangs.", "anchors": ["lambdalib/software/i2c/bus.py: I2CBus.write_block_data, I2CBus.read_block_data, I2CBus.discover", "examples/i2c_bridge.py: Top.elaborate", "lambdalib/cores/i2c/proto.py: I2CProto.elaborate", "lambdalib/cores/serial.py: AsyncSerialStream"]}
{"id": "C151", "title": "USB to I2C bridge end to end", "statement": "With the I2C bridge example over USB, every request a host sends is carried out on the I2C bus exactly once and answered in order, whatever its length: the exchanges seen at the streams of the USB device are the transactions on the bus. Bytes are neither lost nor changed between the streams and the I2C core: at most 32 bytes wait on the way in and 32 on the way out, and either side is left waiting only with 32 bytes on the way.", "quantifier": "every period and configuration, every pattern of bytes offered and answers taken at the streams, every request length and bus behaviour", "why_tests_cant": "The property ranges over every cycle-by-cycle pattern of valid/ready/data on both sides, an infinite set of schedules; the repo's tests draw a few random schedules.", "anchors": ["examples/i2c_bridge.py: Top.elaborate", "lambdalib/cores/i2c/proto.py: I2CProto.elaborate", "lambdalib/interface/stream.py: SyncFIFO", "lambdalib/cores/usb/generic_device.py: USBGenericDevice.source"]}
{"id": "C152", "title": "UTMITranslator starts again after a reset", "statement": "When the clock domain of UTMITranslator is reset, in any cycle of any run, whatever was under way ends at once (nothing on the ULPI bus but stp, nothing being received) and from the next cycle on everything is as after power-up: the PHY is reset again and told nothing meanwhile if it takes nothing, and then the settings registers are written once, function control with the reset bit, if the settings are not the translator's reset settings.", "quantifier": "every run before and after the reset, every number of resets, every PHY and device core behaviour", "why_tests_cant": "The property ranges over every cycle-by-cycle pattern of valid/ready/data on both sides, an infinite set of schedules; the repo's tests draw a few random schedules.", "anchors": ["lambdalib/cores/usb/utmi.py: UTMITranslator.elaborate", "lambdalib/cores/usb/ulpi_wrapper.v: ulpi_wrapper"]}
{"id": "C153", "title": "A program that uses I2CBus over the USB bridge", "statement": "A program on the PC that uses I2CBus on an endpoint of USBDevice, on the USB bridge, is told what really happened: each call that has returned has made exactly its transaction on the I2C bus and returned what happened there, in the order of the calls; every read of the endpoint gets exactly as many bytes as it asked for, so that no answer is cut or taken for another one; once the program has ended nothing else is on the bus and no answer is left unread. This holds for discover_queue too.", "quantifier": "every program that decides its next call from the results so far, every answer of the devices, every timing of the link", "why_tests_cant": "The property ranges over every cycle-by-cycle pattern of valid/ready/data on both sides, an infinite set of schedules; the repo's tests draw a few random schedules.", "anchors": ["lambdalib/software/i2c/bus.py: I2CBus", "lambdalib/software/usb/device.py: USBEndpoint.recv, send", "lambdalib/cores/i2c/proto.py: I2CProto.elaborate", "examples/i2c_bridge.py: Top", "examples/i2c_bridge_soft.py"]}
{"id": "C154", "title": "A program that uses I2CBus over the USB bridge comes to its end", "statement": "If the USB link works (a byte the program has written is offered to the bridge sooner or later, and the link takes bytes time and again) and no device holds the I2C clock, every program on the PC that uses I2CBus over the USB bridge comes to its end, whatever the devices answer; no call waits for ever for a packet.", "quantifier": "every program (adaptive), register width, period >= 4, infinite run, arrival times, back-pressure, device behaviour", "why_tests_cant": "Liveness over infinite runs of software and gateware together: no finite test shows that a call never hangs.", "anchors": ["lambdalib/software/i2c/bus.py: I2CBus.write_block_data, I2CBus.read_block_data, I2CBus.discover", "lambdalib/software/usb/device.py: USBEndpoint.recv, send", "examples/i2c_bridge.py: Top.elaborate", "lambdalib/cores/i2c/proto.py: I2CProto.elaborate"]}
{"id": "C155", "title": "A program that uses exchange over the SPI bridge gets each answer in its call", "statement": "For a program that makes any sequence of USBEndpoint.exchange calls on the SPI host bridge, each depending on the results before it: the bytes given to a call are put on the data lines, most significant bits first, in a run of clock pulses of its own, its result is what was read from the line in the same pulses, in the calls' order, and when the program has ended there have been no other pulses on the bus.", "quantifier": "every program, every division and line width, every delay of the chip select, every run of the bridge and every way in which the USB link delivers and takes bytes; packets of any size", "why_tests_cant": "The calls depend on earlier results and the link may cut and delay the bytes in any way; a test runs one program with one timing.", "anchors": ["examples/spi_bridge.py:SPIMasterBridge", "lambdalib/software/usb/device.py:USBEndpoint.exchange", "lambdalib/cores/usb/endpoint_cdc.py", "lambdalib/cores/spi/stream.py:SPIStream", "lambdalib/cores/spi/master.py:_LiteSPISDRPHYCore"]}
{"id": "C156", "title": "A program that uses exchange over the SPI bridge ends", "statement": "If every call of a program sends at least one byte and the USB link works (time and again it offers what the program has written and takes what the bridge returns), every exchange call returns and the program comes to its end, whatever was on the lines.", "quantifier": "every program, every division and line width, every delay, every infinite run of the bridge, every size of packets and whether or not full packets are marked and followed by empty ones", "why_tests_cant": "Termination under every schedule of the link cannot be seen in a finite number of runs.", "anchors": ["examples/spi_bridge.py:SPIMasterBridge", "lambdalib/software/usb/device.py:USBEndpoint.exchange", "lambdalib/cores/spi/stream.py:SPIStream", "lambdalib/cores/spi/master.py:_LiteSPISDRPHYCore"]}
{"id": "C157", "title": "A program that calls recv on the slave board gets what the host board sent", "statement": "For the two boards of the SPI bridge example joined by their wires: the results of the recv calls on the slave's side, put together, are the bytes that were sent from the host's side, in order, none lost or repeated; once the bus is at rest all of them have been received.", "quantifier": "every sequence of bytes and frames sent, every division and chip select delay, every size of packets, every run of the two boards", "why_tests_cant": "Whether bytes are lost depends on how frames and packets fall on each other and on the pace of the link; a test tries a few lengths.", "anchors": ["examples/spi_bridge.py:SPISlaveBridge", "examples/spi_bridge_soft.py:slave", "lambdalib/cores/spi/slave.py:SPIPHYSlave", "lambdalib/cores/usb/endpoint_cdc.py", "lambdalib/software/usb/device.py:USBEndpoint.recv"]}
{"id": "C158", "title": "An SPI slave with its own clock, at least twice the SPI clock, receives what the host sends", "statement": "Let the SPI host of the bridge send packets, and let the SPI slave run on a clock of its own, of any phase and jitter, fast enough to have an edge in every high and every low phase of the SPI clock. Then the words the slave receives are the words given to the host, in order and whole, and once the chip select has been released and the slave has seen it, all of them. (False as stated: the host raises its chip select five cycles of its clock after the last rising edge, without waiting for the last falling edge, so that a slave that looks at the pins less often than every five host cycles can miss the last bit of a packet; true when the slave has an edge in every min(div+1, 5) host cycles.)", "quantifier": "every word width, number of lines, divisor, chip-select delay, sequence and schedule of words, schedule of the reader, and every schedule of the slave's clock edges relative to the host's", "why_tests_cant": "the phase between two unrelated clocks takes every value; a simulation with one pair of frequencies sees a few of them, and the loss needs a slave edge in a particular window", "anchors": ["lambdalib/cores/spi/master.py:_LiteSPISDRPHYCore", "lambdalib/cores/spi/clkgen.py:LiteSPIClkGen", "lambdalib/cores/spi/stream.py:SPIStream", "lambdalib/cores/spi/slave.py:SPIPHYSlave", "examples/spi_bridge.py:SPIMasterBridge"]}
{"id": "C159", "title": "Two boards of the SPI bridge, each on its own clock, carry a program's bytes from one PC to the other", "statement": "Let the host board and the slave board of the SPI bridge run on clocks of their own, any phase and jitter, the slave with an edge in every min(div+1, 5) cycles of the host. While the slave's user never leaves a word waiting for 2*(width/bw) cycles of the slave in a row, the words it takes are those sent, in order, with at most eight waiting; the results of recv on the slave's PC are, joined, a prefix of the bytes sent. When a program of exchange calls on the host's PC has ended, chip select is released and the slave has had five edges since, the slave's user has everything, and recv has returned all bytes of the program's writes, rounded down to whole packets.", "quantifier": "every divisor, chip-select delay, number of lines, program, packet size, schedule of words, clock schedule and pace of the user", "why_tests_cant": "the phase between two unrelated clocks and the schedules of two PCs take every value; one bench with one pair of clocks sees few of them", "anchors": ["examples/spi_bridge.py:SPIMasterBridge", "examples/spi_bridge.py:SPISlaveBridge", "lambdalib/cores/spi/slave.py:SPIPHYSlave", "lambdalib/cores/spi/stream.py:SPIStream"]}
{"id": "C160", "title": "What the SPI host board receives from a slave board with a clock of its own", "statement": "Let the two boards of the SPI bridge run on clocks of their own, of any phase and jitter, the slave with at least three edges in every half period of the SPI clock (div + 1 cycles of the host), and let the chip-select delay be at least 2 div + 1 cycles of the host. In each frame of the host, with a slave that has words to answer throughout, the host returns one word for each word sent, with its last flag, and the bits of the returned words are one bit of no meaning followed by the bits of the words the slave took during that frame: exactly one bit late, as with a common clock. With two edges in some half period the answer can be later still.", "quantifier": "every word width up to 256, divisor, chip-select delay, schedule of the words, history before and after the frame, every schedule of the slave's clock edges relative to the host's and every choice of the moment in a host cycle at which the data line is read", "why_tests_cant": "the phase between two unrelated clocks takes every value, and whether a bit is late depends on it; a simulation with one pair of frequencies sees few of them", "anchors": ["examples/spi_bridge.py:SPIMasterBridge", "examples/spi_bridge.py:SPISlaveBridge", "lambdalib/cores/spi/slave.py:SPIPHYSlave", "lambdalib/cores/spi/master.py:_LiteSPISDRPHYCore"]}
{"id": "C161", "title": "DumpULPIRegs outputs what the PHY's registers hold", "statement": "With a PHY that keeps to the ULPI protocol on the pins, the bytes that DumpULPIRegs delivers are the contents of registers 0, 1, ..., max_addr in order, whatever the PHY's delays, the status bytes it sends in between and the user's back-pressure (address 0x2f, which leads to the extended registers, gives extended register 0). The PHY's reset pin is high for 2 us after power-up, the bus stays silent until 4 ms later, and when the PHY goes on answering and the user goes on taking bytes the dump comes to its end.", "quantifier": "every register contents, max_addr, PHY delay, interleaving of the two clocks, back-pressure", "why_tests_cant": "The property ranges over every cycle-by-cycle pattern of valid/ready/data on both sides, an infinite set of schedules; the repo's tests draw a few random schedules.", "anchors": ["lambdalib/cores/usb/ulpi.py: DumpULPIRegs, _Transceiver, _POR, _Timer"]}
{"id": "C162", "title": "An SPI slave on its own clock survives edges that fall on a change of the pins", "statement": "Let the SPI host of the bridge send packets, and let the SPI slave run on a clock of its own, at least twice the SPI clock. An edge of the slave's clock that coincides with a change of the pins may find each pin old or new, independently (and changing data lines anyhow). Then the words the slave receives are still the words given to the host, in order and whole, and all of them once the chip select has been released and seen. (False as stated: a slave all of whose edges fall on changes of the SPI clock may never see it high. True when in every min(div+1, 5) cycles of the host's clock the slave has at least one edge away from a change.)", "quantifier": "every word width, number of lines, divisor, chip-select delay, sequence and schedule of words, schedule of the reader, every schedule of the slave's clock edges and every outcome of the edges that coincide with a change", "why_tests_cant": "a simulation samples all pins of one instant; skew between pins and metastable flip-flops do not exist in it", "anchors": ["lambdalib/cores/spi/master.py:_LiteSPISDRPHYCore", "lambdalib/cores/spi/clkgen.py:LiteSPIClkGen", "lambdalib/cores/spi/stream.py:SPIStream", "lambdalib/cores/spi/slave.py:SPIPHYSlave", "examples/spi_bridge.py:SPISlaveBridge"]}
{"id": "C163", "title": "wbusy tells whether a write on a USB endpoint is in progress", "statement": "On an endpoint of the USB software, the attribute wbusy is True exactly while a write asked for by a call of send on that endpoint has not ended, whatever the order in which transfers end, and a send of something that is not bytes raises and asks for nothing. (False as stated: after two sends the first write to end clears wbusy although the second is still in progress, and a send that raises leaves wbusy True for good. True if the program sends only bytes and only while wbusy is False.)", "quantifier": "every program of sends and receives on any number of endpoints, and every order, grouping and status of the ends of the transfers", "why_tests_cant": "The property ranges over every cycle-by-cycle pattern of valid/ready/data on both sides, an infinite set of schedules; the repo's tests draw a few random schedules.", "anchors": ["lambdalib/software/usb/device.py:USBEndpoint.send", "lambdalib/software/usb/device.py:USBEndpoint.cb_wr"]}
{"id": "C164", "title": "Elaborating a USB device gives the device asked for, each time", "statement": "Elaborating a USBGenericDevice object gives the endpoints and descriptors of its sizes (64 or 512 bytes by default), the user's request handlers and custom endpoints in the order given, and, exactly if with_microsoft_os_1_0 is True or a non-empty list, the Microsoft OS string announcing the request code of one handler that declares interface 0 or the interfaces of the list. Elaborating the same object again (for a simulation and then a build) gives the same device. (The last part is false with Microsoft descriptors: every elaboration adds its handler to the object, and the n-th device has n handlers for the same request.)", "quantifier": "every configuration (sizes, pairs, speed, Microsoft argument, handlers, custom endpoints) and every number of earlier elaborations", "why_tests_cant": "a test elaborates a few configurations, each once", "anchors": ["lambdalib/cores/usb/generic_device.py:USBGenericDevice.elaborate", "lambdalib/cores/usb/generic_device.py:USBGenericDevice.add_microsoft_os_1_0", "lambdalib/cores/usb/generic_device.py:USBGenericDevice.add_control_ep_handler"]}
{"id": "C165", "title": "A program's bytes go from one PC to the other although the slave board's clock edges may fall on changes of the pins", "statement": "Let the two boards of the SPI bridge run on clocks of their own, and let any edges of the slave's clock coincide with a change of the SPI pins and find each pin old or new, as long as in every min(div+1, 5) cycles of the host's clock there is an edge that does not. While the slave's user never leaves a word waiting for 2*(width/bw) cycles of the slave in a row, the words it takes are those sent, in order, with at most eight waiting, and the results of recv on the slave's PC are, joined, a prefix of the bytes sent. When a program of exchange calls on the host's PC has ended, chip select is released and the slave has had five edges since, recv has returned all bytes of the program's writes, rounded down to whole packets.", "quantifier": "every divisor, chip-select delay, number of lines, program, packet size, schedule of words, clock schedule, outcome of the coinciding edges and pace of the user", "why_tests_cant": "a simulation samples all pins of one instant, and sees few of the phases between two unrelated clocks", "anchors": ["examples/spi_bridge.py:SPIMasterBridge", "examples/spi_bridge.py:SPISlaveBridge", "lambdalib/cores/spi/slave.py:SPIPHYSlave", "lambdalib/cores/spi/stream.py:SPIStream"]}
{"id": "C166", "title": "What the SPI host board receives from a slave board whose clock edges may fall on changes of the pins", "statement": "Let the two boards of the SPI bridge run on clocks of their own, and let any edges of the slave's clock coincide with a change of the SPI pins and find clock and chip select each old or new. Let the slave have at least three edges that do not in every half period of the SPI clock (div + 1 cycles of the host), and let the chip-select delay be at least 2 div + 1 cycles of the host. In each frame of the host, with a slave that has words to answer whenever it finds the chip select low, the host returns one word for each word sent, with its last flag, and the bits of the returned words are one bit of no meaning followed by the bits of the words the slave took: exactly one bit late. If some of the three edges may fall on a change, the answer can be later still.", "quantifier": "every word width up to 256, divisor, chip-select delay, schedule of the words, history before and after the frame, clock schedule, outcome of the coinciding edges and every choice of the moment in a host cycle at which the data line is read", "why_tests_cant": "a simulation samples all pins of one instant, and sees few of the phases between two unrelated clocks", "anchors": ["examples/spi_bridge.py:SPIMasterBridge", "examples/spi_bridge.py:SPISlaveBridge", "lambdalib/cores/spi/slave.py:SPIPHYSlave", "lambdalib/cores/spi/master.py:_LiteSPISDRPHYCore"]}
{"id": "C167", "title": "An SPI slave looped to itself sends back what it receives, a word later", "statement": "Connect the received words of an SPIPHYSlave to its words to send (SlaveLoopBench). In each frame in which the clock rests three cycles before each sampling edge and keeps its level, selected, for three cycles after it, and if the frames before were whole words, what the master reads is one word of no meaning (all bits of each line equal) followed by what it sends, from the first bit on: bit for bit, exactly one word late. With only two cycles of hold after the edges the answer can be one bit late; after a frame that is not a whole number of words the next frame starts with its rest.", "quantifier": "every word width, number of data lines dividing it, clock mode, layout with or without lengths, history before the frame, frame length, data and clock timing within the bounds", "why_tests_cant": "the test runs four words at one clock ratio and checks nothing of what comes back", "anchors": ["lambdalib/tests/test_cores_spi.py:SlaveLoopBench", "lambdalib/cores/spi/slave.py:SPIPHYSlave"]}
{"id": "C168", "title": "A host gets its own words back from a looped SPI slave, one word late", "statement": "Connect a master behind an SPIStream and a slave looped to itself (SlaveLoopBench) by their pins, on one clock, single data line, equal cpol and cpha, divisor between 3 and 255 and chip-select delay above the divisor. In each frame of the host, one word comes back per word sent, with the same last flags: first a word of no meaning, all zeros or all ones, then the words sent in this frame, in order and unchanged, without the last one. With a divisor of 2 the words come back one bit late instead.", "quantifier": "every word width from 1 to 256, divisor, delay, layout with or without lengths, history before the frame, sequence of words sent and pace at which the words returned are taken", "why_tests_cant": "the test runs four words at one clock ratio and checks nothing of what comes back; the hold time after the sampling edges depends on the fill of the receive FIFO and on the end of the frame", "anchors": ["lambdalib/tests/test_cores_spi.py:SlaveLoopBench", "lambdalib/cores/spi/slave.py:SPIPHYSlave", "lambdalib/cores/spi/master.py:_LiteSPISDRPHYCore", "lambdalib/cores/spi/stream.py:SPIStream"]}
{"id": "C169", "title": "A USB device object is usable as long as the program holds it or an endpoint, and gives the device back at the end", "statement": "Whichever library calls fail and whatever the program does with a USBDevice and its endpoints: every transfer is made after a successful claim of the interface and before its release and the end of the library context; an endpoint got and not dropped can be used, also after the device itself was dropped; the interface is released at most once, only after a claim was tried, and no call follows the end of the context. Once the program has dropped the device and all its endpoints and the garbage collector has run, the context is closed, unless releaseInterface fails. False as it stands: when the interface cannot be claimed, its release in __del__ fails too and the context is never closed; and a program that drops an endpoint and the device keeps the interface until the collector runs, because an endpoint refers to itself.", "quantifier": "every USB library (any call may fail, depending on the history), device list, program of any length with any number of endpoints", "why_tests_cant": "needs devices whose calls fail at chosen points and every order of dropping references", "anchors": ["lambdalib/software/usb/device.py:USBDevice", "lambdalib/software/usb/device.py:USBEndpoint"]}
{"id": "C170", "title": "A host whose SPI data pins are connected to themselves gets its words back", "statement": "Connect the data output of an SPIPHYMaster to its own data input, as MasterStreamBench does (miso to mosi, or the data lines while the output is enabled), and feed it through an SPIStream: the words come back from data_source unchanged and in order, with their last flags, at most ten are on their way, and all of them are back whenever the chip select is high.", "quantifier": "every word width up to 256, one, two, four or eight data lines dividing it, clock divisor, delay, sequence and pace of words, and pace at which the returned words are taken", "why_tests_cant": "the test sends sixteen words of eight bits at one clock ratio with both sides always ready", "anchors": ["lambdalib/tests/test_cores_spi.py:MasterStreamBench", "lambdalib/cores/spi/stream.py:SPIStream", "lambdalib/cores/spi/master.py:_LiteSPISDRPHYCore"]}
{"id": "C171", "title": "An SPI master and an SPI slave connected by their pins: what arrives, and what comes back", "statement": "Connect an SPIPHYMaster and an SPIPHYSlave of the same word width and line count by their pins, as MasterSlaveBench does. If every word is sent over all lines with the output enabled, and the user releases the chip select only when every word was answered, the words the slave receives are the words given to the master, whole, unchanged and in order; each arrives at the latest three cycles after the master returned its answer, and leaves the slave with its length if the slave's FIFO has room. In the other direction, with more than one data line, nothing comes through: every word the master returns is zero, whatever the slave was given to send, because the slave never enables its outputs.", "quantifier": "every word width up to 256, one, two, four or eight data lines dividing it, clock divisor, delay, layout with or without lengths, mode with cpol = cpha, sequence and pace of words on both sides; the last part: every word width, line count other than one and any use at all", "why_tests_cant": "the test sends four words in one frame, with one clock ratio, and does not look at what the master receives", "anchors": ["lambdalib/tests/test_cores_spi.py:MasterSlaveBench", "lambdalib/cores/spi/slave.py:SPIPHYSlave", "lambdalib/cores/spi/master.py:_LiteSPISDRPHYCore"]}
{"id": "C172", "title": "I2C with nobody on the bus, and with SDA stuck low", "statement": "With no other device on the bus (SDA has the level the core asks for) the I2CInitiator reports every write as not acknowledged and reads 255. Hence I2CStream reports an error for every byte it writes, I2CProto answers every request, read or write, with the single status byte 1, I2CBus.discover finds nothing, and I2CWriterStream takes at most one byte and never tries to write another, and I2CRegisterInit with a non-empty table never says that it is done. With SDA stuck low every write is acknowledged and every read gives 0: I2CProto answers every write with status 0 and every read with status 0 and zeros, and discover finds a device at each of the 128 addresses.", "quantifier": "every period of at least 4 cycles, with or without clock stretching and clock input, any behaviour of SCL, any sequence of commands, beats or requests of a host that respects the protocol of C51", "why_tests_cant": "whether a sample taken through a two stage synchroniser is the level of the same clock depends on the period and the moment the clock is seen high; the tests tie the pads to constants and look at waveforms by eye", "anchors": ["lambdalib/cores/i2c/i2c.py:I2CInitiator", "lambdalib/cores/i2c/stream.py:I2CStream", "lambdalib/cores/i2c/stream.py:I2CWriterStream", "lambdalib/cores/i2c/init.py:I2CRegisterInit", "lambdalib/cores/i2c/proto.py:I2CProto", "lambdalib/software/i2c/bus.py:I2CBus.discover", "lambdalib/tests/test_cores_i2c.py:I2C_Pins_Stub"]}
{"id": "C173", "title": "Packets and exceptions of I2CBus over USB", "statement": "Each call of write_block_data or read_block_data over a USB endpoint takes packets from the front, one for each of its reads (a write: one status; a read: two statuses, then the block), and leaves the others to the next call, also when it fails. It waits only when all packets were taken. IndexError means an empty packet where a status was due; ValueError means a number that is not a byte, before anything was sent, except that a read of more than 255 bytes has by then already written the register address to the device.", "quantifier": "every register width, address, register, data and length, every sequence of packets", "why_tests_cant": "the tests do not run the software against a device", "anchors": ["lambdalib/software/i2c/bus.py:I2CBus.write_block_data", "lambdalib/software/i2c/bus.py:I2CBus.read_block_data", "lambdalib/software/usb/device.py:USBEndpoint.recv"]}
{"id": "C174", "title": "A program on an I2C bus with nobody on it, or with SDA stuck low", "statement": "With no device on the bus the only byte an I2CProto ever sends is 1, with SDA stuck low the only byte is 0, whatever the host sends and however it pauses, also when the data of a refused write are taken for requests. Hence a program that uses I2CBus over the UART or the USB bridge on an empty bus is told by every write and every read that it failed (None) and by every probe that nobody is there, and discover and discover_queue list nothing; on a bus with SDA stuck low it is told by every write that all bytes were written, by every read that the bytes are 0, by every probe that a device is there and by discover, over the UART bridge, that there are 128, and I2CRegisterInit says within a bounded time that it is done.", "quantifier": "every program (adaptive, any arguments), register width, period of at least 4 cycles, any arrival times of any bytes, back-pressure, behaviour of SCL", "why_tests_cant": "whether a program can ever see a device that is not there depends on every order of requests, late data and answers; the software is not run against the cores by any test", "anchors": ["lambdalib/cores/i2c/proto.py:I2CProto", "lambdalib/cores/i2c/stream.py:I2CStream", "lambdalib/cores/i2c/init.py:I2CRegisterInit", "lambdalib/software/i2c/bus.py:I2CBus", "examples/i2c_bridge.py:Top", "lambdalib/software/usb/device.py:USBEndpoint.recv"]}
{"id": "C175", "title": "An I2C bus whose SCL is held low for ever", "statement": "A core that obeys clock stretching waits for ever when a device holds SCL low: once SCL has been low for two cycles and stays low, an I2CInitiator takes at most one more command and is busy from then on, an I2CProto sends at most one more byte and an I2CWriterStream takes at most one more byte. A program on I2CBus, over the UART or the USB bridge, then receives at most 33 more bytes and at most 33 more of its calls return (32 answers may wait in the bridge). If SCL is low from power-up, an I2CProto never sends a byte, an I2CRegisterInit never says that it is done, and the first call of a program never returns: there is no timeout.", "quantifier": "every run and every point of it at which SCL goes low, any state the core is in then, any input and back-pressure, behaviour of SDA, any period of at least 4 cycles, any program and any first call; initiators with clk_stretch on a pad with output enable", "why_tests_cant": "a test can only wait for a bounded time, and the device may take SCL low in any cycle of any command", "anchors": ["lambdalib/cores/i2c/i2c.py:I2CInitiator", "lambdalib/cores/i2c/proto.py:I2CProto", "lambdalib/cores/i2c/stream.py:I2CStream", "lambdalib/cores/i2c/stream.py:I2CWriterStream", "lambdalib/cores/i2c/init.py:I2CRegisterInit", "lambdalib/software/i2c/bus.py:I2CBus"]}
