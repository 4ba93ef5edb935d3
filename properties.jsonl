{"id": "C01", "title": "Ring buffer is a sliding list of the most recent values", "statement": "After constructing a ring_buffer of requested size n (n>=1) and applying any sequence of push / pop_front / fill / clear / element writes, size() is the least power of two >= n and never changes, every b[i] with i<size() is an in-bounds access, b[0]/front() is the most recently pushed value, b[i] the i-th most recent (default-initialised values before enough pushes), back() is b[size()-1]; pop_front rotates (the dropped front becomes the back); indices >= size() wrap modulo size().", "quantifier": "all requested sizes 1..2^63, all operation sequences of any length, all element types and values, all size_t indices", "why_tests_cant": "The position counter wraps at 2^64 and the contents depend on the whole history; tests sample a few short histories.", "anchors": ["q_lib/include/q/utility/ring_buffer.hpp: ring_buffer::push, operator[], front, back, pop_front, fill, clear", "q_lib/include/q/detail/init_store.hpp: init_store"]}
{"id": "C02", "title": "Integer delay line delays by exactly the requested number of samples", "statement": "For a delay line built for max_delay samples, the t-th call d(x_t, i) returns x_{t-1-i} when that sample exists and 0 otherwise, for every integer i below the buffer size (>= max_delay); a request i equal to the buffer size does not delay but returns the newest sample. delay1 returns the previous input and delay2 the one before that.", "quantifier": "all input signals of any length, all buffer sizes, all per-call delay requests", "why_tests_cant": "Needs every history and every delay request, including the boundary at the capacity.", "anchors": ["q_lib/include/q/fx/delay.hpp: delay1, delay2, basic_delay, nf_delay", "q_lib/include/q/utility/ring_buffer.hpp"]}
{"id": "C03", "title": "Fractional delay interpolates between the two neighbouring past samples", "statement": "For a fractional delay with real index r, 0<=r, floor(r)+1 < buffer size, the value returned is y1 + mu*(y2-y1) with y1, y2 the samples floor(r) and floor(r)+1 back and mu = r - floor(r) computed without rounding error in binary32; at integral r it is exactly the stored sample. For r between size-1 and size the second neighbour is the NEWEST sample (wrap).", "quantifier": "all buffers, all finite non-negative float indices below 2^63, all contents", "why_tests_cant": "Float index arithmetic and wrap-around must be right for every float index.", "anchors": ["q_lib/include/q/utility/fractional_ring_buffer.hpp: operator[]", "q_lib/include/q/utility/interpolation.hpp: none, linear", "q_lib/include/q/support/base.hpp: linear_interpolate", "q_lib/include/q/fx/delay.hpp: delay"]}
{"id": "C04", "title": "Bitset range write touches exactly the requested range", "statement": "bitset::set(i, n, val) makes get(j)==val for every j in [i, min(i+n, size())) and leaves every other bit unchanged, without accessing memory outside the storage, for all i, n with i+n not overflowing size_t; size() is the requested size rounded up to a whole number of words; clear() zeroes every bit.", "quantifier": "all bitset sizes, all word widths, all previous contents, all i, n, val", "why_tests_cant": "Carry-in partial words, spanning any number of words, with any offset; the state space is 2^size.", "anchors": ["q_lib/include/q/utility/bitset.hpp: bitset::bitset, set(range), get, clear, size"]}
{"id": "C05", "title": "Bitset single-bit access", "statement": "set(i,val) followed by get(j) returns val for j==i and the previous bit otherwise, for every i<size(), and out-of-range indices are ignored.", "quantifier": "all sizes, contents, indices, values", "why_tests_cant": "The mask is computed as a 32-bit int shift: only some bit positions and the index equal to size() expose the defect.", "anchors": ["q_lib/include/q/utility/bitset.hpp: bitset::set(i,val), get"]}
{"id": "C06", "title": "Bitstream autocorrelation counts mismatching bits", "statement": "bitstream_acf(pos) returns the number of indices j in the first half window with bit j different from bit j+pos, and reads only words inside the bitset, for every pos up to half the bitset.", "quantifier": "all bitset contents and sizes (>=2 words), all lags pos <= half the number of bits", "why_tests_cant": "2^size contents times all lags, including word-unaligned shifts.", "anchors": ["q_lib/include/q/utility/bitstream_acf.hpp: bitstream_acf::operator()", "q_lib/include/q/detail/count_bits.hpp: count_bits"]}
{"id": "C07", "title": "Zero-crossing collector never overruns and keeps edges ordered", "statement": "For any sample sequence fed to zero_crossing, the edge store never overflows its capacity and the internal assertions never fire; whenever is_ready() holds there are at least 2 and fewer than capacity edges; the leading-edge positions of recorded edges are strictly ordered in time; for every two edges period() and fractional_period() assertions hold.", "quantifier": "all sample sequences of any length and any float value (incl. NaN, inf), all window sizes and hysteresis levels", "why_tests_cant": "The state machine has unbounded history; overflow requires adversarial crossing patterns.", "anchors": ["q_lib/include/q/utility/zero_crossing.hpp: zero_crossing::operator(), update_state, shift, operator[], info"]}
{"id": "C08", "title": "Period detection never reads or writes outside its buffers", "statement": "For every signal fed to period_detector, the bitset range writes and every autocorrelation lag issued stay within the bit store and no assertion fires; the bits analysed are exactly the recorded positive half-waves; the reported period is finite. (Refuted parts: a stale edge can fill bits, a NaN sample makes a float->int conversion undefined, a period below the minimum can be reported.)", "quantifier": "all sample sequences, all legal frequency ranges and sample rates", "why_tests_cant": "Depends on the joint state of the edge collector and the correlator after arbitrary histories.", "anchors": ["q_lib/include/q/pitch/period_detector.hpp: set_bitstream, autocorrelate, operator()"]}
{"id": "C09", "title": "Moving maximum equals the maximum of the window", "statement": "After each call moving_maximum(v) returns the maximum of the most recent `size` inputs (of all inputs so far plus the floor value -3.40e38 before `size` inputs have been seen).", "quantifier": "all window sizes >=1 (power of two or not), all input sequences, any totally ordered value type", "why_tests_cant": "Tournament tree with wrap-around; correctness at every phase of the window for every size.", "anchors": ["q_lib/include/q/fx/moving_maximum.hpp: moving_maximum"]}
{"id": "C10", "title": "Integer moving sum is exact forever", "statement": "basic_moving_sum<int> always returns the exact sum of the last `size` inputs (missing ones count 0) after any sequence of calls, clear() and fill(); the accumulator never drifts; wrap-around is modulo the result width only.", "quantifier": "all window sizes >=1 and input sequences of any length", "why_tests_cant": "Recursive accumulators drift only after long histories.", "anchors": ["q_lib/include/q/fx/moving_average.hpp: basic_moving_sum"]}
{"id": "C11", "title": "Integer moving average is the truncated mean", "statement": "basic_moving_average<int> returns sum/size. (The code divides a signed sum by an unsigned size, so negative sums are wrong.)", "quantifier": "all window sizes and input sequences", "why_tests_cant": "Wrong only for negative sums with non-power-of-two windows: sampling positive signals passes.", "anchors": ["q_lib/include/q/fx/moving_average.hpp: basic_moving_average::operator()"]}
{"id": "C12", "title": "Float moving sum does not drift on PCM signals", "statement": "For inputs that are 24-bit PCM samples (k/2^23) and windows up to 2^29 samples, the double accumulator of moving_sum holds the exact sum of the window for ever; hence feeding `size` zeros returns it to exactly 0. For arbitrary finite samples of magnitude at most B the accumulator is within n (size+1) B 2^-51 of the exact window sum after n operations (the average correspondingly). (Refuted: for arbitrary floats it is exact - after 1, 2^-60 and 0 in a window of one, the sum is negative.)", "quantifier": "all PCM input sequences of any length, all windows up to 2^29", "why_tests_cant": "Rounding drift accumulates only over unbounded runs.", "anchors": ["q_lib/include/q/fx/moving_average.hpp: basic_moving_sum<float>, accumulator"]}
{"id": "C13", "title": "Median filter returns the median of the last three samples", "statement": "median3(a) returns the middle value of the last three inputs (initial value standing in for missing ones): at least two of the three are <= it and at least two are >= it, and it is one of them.", "quantifier": "all sequences of ordered (non-NaN) floats", "why_tests_cant": "All orderings and ties over all histories.", "anchors": ["q_lib/include/q/fx/median.hpp: median3f, median3"]}
{"id": "C14", "title": "MIDI messages round-trip their fields", "statement": "Every constructor/accessor pair of the MIDI message types returns the fields it was built from for all legal field values (channel 0..15, data 0..127, pitch bend/song position 0..16383), distinct legal messages have distinct bytes, data bytes have the high bit clear and status bytes carry the right status nibble.", "quantifier": "all message kinds and all legal field values", "why_tests_cant": "Bit packing over all field values and kinds.", "anchors": ["q_lib/include/q/support/midi.hpp: message1/2/3, note_off .. reset, pitch_bend, song_position"]}
{"id": "C15", "title": "MIDI dispatch invokes exactly the matching handler with the decoded fields", "statement": "dispatch(raw, time, proc) calls the handler of the kind selected by the status byte, with the original fields, and calls nothing for unknown status bytes. (System messages 0xF0-0xFF are never dispatched by the code.)", "quantifier": "all 32-bit raw messages", "why_tests_cant": "All 2^32 raw messages; a test only feeds a few.", "anchors": ["q_lib/include/q/support/midi.hpp: dispatch"]}
{"id": "C16", "title": "MIDI note names and numbers are inverse", "statement": "note_number(note_name(n)) == n for every MIDI key in the named range, and note names are unique; malformed names have an unspecified result.", "quantifier": "all MIDI keys 0..127 and all strings", "why_tests_cant": "All names and all malformed strings (uninitialised result).", "anchors": ["q_lib/include/q/support/midi.hpp: note_name, note_number, note_frequency"]}
{"id": "C17", "title": "Phase accumulator advances exactly and wraps once per cycle", "statement": "n increments of a phase_iterator give phase n*step mod 2^32; decrement undoes increment; first() is true exactly on the sample that starts a new cycle and last() exactly on the one before the wrap; over n steps the number of first() hits equals the number of whole cycles completed; phase(freq, sps) is freq/sps of a cycle to within one step of 2^-32 for frequencies in [0, sps).", "quantifier": "all 32-bit steps and start phases, all numbers of increments", "why_tests_cant": "Wrap-around arithmetic over unbounded runs.", "anchors": ["q_lib/include/q/support/phase.hpp: phase_iterator::operator++, operator--, first, last, begin, middle, end"]}
{"id": "C18", "title": "One-shot phase iterator saturates at the end of the cycle", "statement": "A one_shot_phase_iterator never wraps: its phase is monotone, equals min(start + n*step, end) behaviour (saturates at the final phase), and decrement saturates at zero.", "quantifier": "all steps, phases and numbers of increments", "why_tests_cant": "Overflow cases arise only for particular step/phase pairs.", "anchors": ["q_lib/include/q/support/phase.hpp: one_shot_phase_iterator"]}
{"id": "C19", "title": "Basic oscillators stay in [-1, 1]", "statement": "The outputs of the basic saw, square, pulse and triangle oscillators lie in [-1,1] for every phase, square and pulse take only the two values switching exactly at the shift; the band-limited ones lie in [-1,1] up to their polyBLEP corrections; the sine oscillator lies in [-1,1] and is within a fixed error of sin(2 pi phase/2^32). (Refuted parts: basic_triangle is undefined at phase 2^31; square emits a -2 glitch at phase 2^31.)", "quantifier": "all 2^32 phases (and all shifts)", "why_tests_cant": "2^32 phases; the defect is at one single phase.", "anchors": ["q_lib/include/q/synth/saw.hpp", "q_lib/include/q/synth/square.hpp", "q_lib/include/q/synth/pulse.hpp", "q_lib/include/q/synth/triangle.hpp", "q_lib/include/q/detail/table_lookup.hpp", "q_lib/include/q/detail/sin_table.hpp", "q_lib/include/q/synth/sin.hpp"]}
{"id": "C20", "title": "ADSR envelope state machine", "statement": "trigger(v) above the current level starts the attack (otherwise it is ignored); the envelope progresses attack->decay->sustain->release->off in order without skipping back except by trigger/legato/release; the output stays within [0, max level]; release from any active state enters the release phase; the off state outputs 0 until the next trigger; attack, decay and release each complete in a bounded number of samples for durations within stated limits. (Refuted parts: very long decays and releases never end; legato from an uninitialised object.)", "quantifier": "all call sequences (samples, trigger, legato, decay, release), all configured rates and levels", "why_tests_cant": "Unbounded interleavings of events with samples.", "anchors": ["q_lib/include/q/synth/envelope.hpp: envelope::operator(), trigger, legato, decay, release, update_*"]}
{"id": "C21", "title": "Envelope followers stay between their input and state extremes", "statement": "envelope_follower and peak_envelope_follower outputs always lie between the minimum and maximum of the initial value and all inputs so far; the follower rises only on inputs above it and falls only on inputs below it; a constant input is a fixed point.", "quantifier": "all input sequences, all coefficients in [0,1]", "why_tests_cant": "Recursive state over unbounded histories.", "anchors": ["q_lib/include/q/fx/envelope.hpp: envelope_follower, peak_envelope_follower", "q_lib/include/q/support/base.hpp: fast_exp3"]}
{"id": "C22", "title": "Fast envelope follower holds a windowed peak", "statement": "fast_envelope_follower's output is always >= the current input and >= every input in the last `hold` samples, is 0 or one of the inputs of the last (div+1)*(hold+1) samples, until the 16-bit slot counter wraps.", "quantifier": "all input sequences of any length, all hold times", "why_tests_cant": "Counter wrap after 65536 resets breaks round robin: far beyond test length.", "anchors": ["q_lib/include/q/fx/envelope.hpp: basic_fast_envelope_follower"]}
{"id": "C23", "title": "Dynamics processors only act on the right side of the threshold", "statement": "compressor returns 0 dB gain at or below threshold and (threshold-env)*(1-1/ratio) within rounding above; the gain is never positive and the output level (env+gain) is monotone in env; expander symmetric below; soft-knee agrees with hard-knee outside the knee and lies between inside it; agc gain is bounded by max and tracks ref/env. (agc folds back to unity at very low levels: it does not hold max gain.)", "quantifier": "all envelope levels, thresholds, ratios, knee widths", "why_tests_cant": "Real-valued inequalities over all parameters.", "anchors": ["q_lib/include/q/fx/dynamic.hpp: compressor, soft_knee_compressor, expander, agc"]}
{"id": "C24", "title": "Noise gate hysteresis", "statement": "A closed gate opens exactly when the envelope exceeds the onset threshold (for a gate with an attack window of W samples: when the envelope has risen by more than the onset threshold over the last W samples that arrived while it was closed), and an open one closes exactly when the envelope falls below the release threshold, with the thresholds in force at that sample; otherwise the state is kept. The one-argument constructor puts the onset 12 dB above the release threshold.", "quantifier": "all envelope sequences of any length, all window sizes, all thresholds and setter calls in between", "why_tests_cant": "Stateful logic over all sequences; stale differentiator state only shows after open/close cycles.", "anchors": ["q_lib/include/q/fx/noise_gate.hpp"]}
{"id": "C25", "title": "Schmitt trigger and window comparator have hysteresis", "statement": "schmitt_trigger output changes to 1 only when the positive input exceeds the negative by more than the hysteresis and to 0 only when it is lower by more than the hysteresis; otherwise it holds. window_comparator likewise with its two levels. Each is determined by the last decisive input.", "quantifier": "all input sequences, all hysteresis values", "why_tests_cant": "History-dependent output over all sequences.", "anchors": ["q_lib/include/q/fx/feature_detection.hpp: schmitt_trigger, window_comparator, zero_cross, peak"]}
{"id": "C26", "title": "Monostable pulses last exactly the configured time", "statement": "Once triggered, monostable outputs 1 for exactly n samples regardless of the input meanwhile, then 0 until re-triggered; rising_edge is 1 exactly on 0->1 transitions.", "quantifier": "all input sequences, all pulse lengths", "why_tests_cant": "All retrigger patterns over unbounded histories.", "anchors": ["q_lib/include/q/fx/special.hpp: monostable, rising_edge"]}
{"id": "C27", "title": "Differentiator and integrator are discrete difference and sum", "statement": "differentiator outputs x_t - x_{t-1}, central_difference (x_t - x_{t-2})/2, fast_downsample/decimation averages pairs, and integrator accumulates gain*x; integrating the difference telescopes.", "quantifier": "all input sequences of any length", "why_tests_cant": "Telescoping identities over all histories.", "anchors": ["q_lib/include/q/fx/special.hpp: differentiator, central_difference, integrator, fast_downsample"]}
{"id": "C28", "title": "Clip and soft clip bound the signal", "statement": "clip(max) returns s clamped to [-max,max] for every float s and soft_clip's binary32 output is within [-1,1] for every finite input and odd/monotone on [-1,1]; NaN inputs are passed through.", "quantifier": "all 2^32 binary32 inputs, all max >= 0", "why_tests_cant": "2^32 inputs with rounding.", "anchors": ["q_lib/include/q/fx/waveshaper.hpp: clip, soft_clip"]}
{"id": "C29", "title": "One-pole filters are bounded and settle", "statement": "one_pole_lowpass, exp_moving_average, moving_average2, dc_block and the fixed-point leaky integrator keep their output within the range spanned by initial state and inputs (up to stated rounding), have unity (dc_block: zero) DC gain, converge to a constant input up to stated rounding, and are stable for the cutoff frequencies where they are; above that they diverge (refuted claim: stable for every cutoff below Nyquist).", "quantifier": "all input sequences, all coefficients in (0,1)", "why_tests_cant": "Unbounded recursive histories.", "anchors": ["q_lib/include/q/fx/lowpass.hpp: one_pole_lowpass, leaky_integrator, fixed_pt_leaky_integrator", "q_lib/include/q/fx/moving_average.hpp: exp_moving_average, rt_exp_moving_average, moving_average2"]}
{"id": "C30", "title": "One-pole allpass preserves energy", "statement": "For |a|<1 the one_pole_allpass output energy never exceeds the input energy and input energy = output energy + stored energy exactly at every time; likewise the two-branch polyphase allpass and both branches of the hilbert quadrature; a sine of any frequency comes out at the same amplitude (unit gain at every frequency), shifted by 90 degrees at the pivot frequency; the float filter stays within a bound of the exact one.", "quantifier": "all finite input signals, all |a|<1", "why_tests_cant": "An identity over all signals.", "anchors": ["q_lib/include/q/fx/allpass.hpp: one_pole_allpass, polyphase_allpass"]}
{"id": "C31", "title": "Biquads are linear, time invariant and have their designed response", "statement": "Every biquad section is linear and time-invariant and satisfies its difference equation; each cookbook design has the documented gain at DC, Nyquist and centre frequency, its poles are inside the unit circle for 0<f<sps/2 and positive Q, so bounded input gives bounded output and the response to the past dies out; the float section with pole radius at most 1-1/512 stays finite and tracks the exact one. (Refuted stronger claims: the q argument of the shelf filters has an effect; the designed poles stay inside the unit circle after rounding the coefficients to float.)", "quantifier": "all input sequences, all frequencies 0<f<sps/2, all Q>0, all gains", "why_tests_cant": "Quantifies over all signals and all design parameters.", "anchors": ["q_lib/include/q/fx/biquad.hpp: biquad, config_biquad, lowpass, highpass, bandpass_csg, bandpass_cpg, notch, allpass, peaking, lowshelf, highshelf"]}
{"id": "C32", "title": "FFT computes the discrete Fourier transform", "statement": "fft<N> replaces the interleaved complex data by its discrete Fourier transform for every power of two N>=2 and every input; computed in double, every output is within 2^-49 N^2 B of it when the inputs are bounded by B.", "quantifier": "all N=2^k (k<=29), all input arrays", "why_tests_cant": "All sizes and inputs; the bit-reversal and the recursion must be right for every N.", "anchors": ["q_lib/include/q/fft/fft.hpp: fft, scramble, danielson_lanczos, sin_cos_series"]}
{"id": "C33", "title": "Fast random generator range and full period", "statement": "fast_rand() is always in [0, 32767] and its 32-bit seed runs through all 2^32 states before repeating.", "quantifier": "all seeds and all call counts", "why_tests_cant": "Period is 2^32 calls.", "anchors": ["q_lib/include/q/support/base.hpp: fast_rand"]}
{"id": "C34", "title": "Decibel conversions stay in bounds, are monotone and accurate", "statement": "a2db and db2a read only inside their tables for every float argument they accept, return finite values, and the piecewise result is monotone across entries, table joins and the reciprocal branch. They are also accurate: a2db is within 0.0001 dB of 20 log10 a on (1/8, 8), 0.018 dB on (1/1024, 1024) and 0.53 dB on (2^-20, 2^20); db2a is within a relative 0.00002 of 10^(x/20) for |x| <= 120 dB; a level survives the trip through an amplitude within 0.0003 / 0.018 / 0.53 dB for |x| <= 18 / 60 / 120 dB.", "quantifier": "all binary32 arguments", "why_tests_cant": "2^32 arguments; table edges.", "anchors": ["q_lib/include/q/detail/db_table.hpp: a2db, db2a", "q_lib/include/q/support/decibel.hpp"]}
{"id": "C35", "title": "Decibel, duration, frequency and interval values form an ordered additive group", "statement": "Unit-carrying values (frequency, duration, period, decibel) obey the expected algebra: the six comparisons agree with the carried number (infinities included, NaN unordered), +,-,*,/ are the nearest representable values to the exact results and exact when representable, addition is commutative with 0 and -x, the order is preserved by adding and by scaling, compound and mixed forms agree with the plain ones, frequency and period are reciprocal within one rounding and order-reversing, integer literals carry the written number (kHz, MHz exactly). (Refuted stronger claims: (a+b)-b == a and associativity for all values; frequency(period(f)) == f; 9_ms is the double nearest 0.009.)", "quantifier": "all carried values", "why_tests_cant": "Algebraic law over all values.", "anchors": ["q_lib/include/q/support/value.hpp", "q_lib/include/q/support/decibel.hpp", "q_lib/include/q/support/frequency.hpp", "q_lib/include/q/support/duration.hpp"]}
{"id": "C36", "title": "WAV memory source streams the file in order", "statement": "Successive calls of wav_memory::operator() return consecutive frames of the file in order without loss or duplication, then zeros after the end, for every buffer size >= 1; after restart()/seek() fewer than buff_size already buffered frames are still returned, then the file plays from the new position. (Refuted stronger claims: restart() rewinds immediately; a file that failed to open plays silence; the string constructor honours buff_size.)", "quantifier": "all file contents, all buffer sizes, all call sequences including restart", "why_tests_cant": "Interaction of buffering and restart over all histories.", "anchors": ["q_io/include/q_io/audio_file.hpp: wav_memory", "q_io/src/audio_file.cpp"]}
{"id": "C37", "title": "Device enumeration is idempotent", "statement": "With an unchanging set of devices audio_device::list() returns one entry per usable device with its id, in order, no matter how often it is called; audio_device::get(id) returns the device with that id and the object stays valid; the same for midi_device::list(). (False of the code when some device has no channels, after a hot-plug keeping the count, and for every repeated midi_device::list().)", "quantifier": "all device configurations, all call sequences", "why_tests_cant": "Static caches only misbehave on repeated calls or unusual device sets.", "anchors": ["q_io/src/audio_device.cpp: get_devices, list, get", "q_io/src/midi_device.cpp: list"]}
{"id": "C38", "title": "Musical note frequencies double per octave", "statement": "note_frequency(key) of the MIDI support is positive for the covered keys, doubles every 12 keys, is strictly increasing in the key and is 440 Hz for A4; keys outside the table give 0.", "quantifier": "all MIDI keys", "why_tests_cant": "Table driven: every row and column must agree.", "anchors": ["q_lib/include/q/support/midi.hpp: note_frequency", "q_lib/include/q/support/notes.hpp: note_frequencies, octave_notes, note[], eb[]"]}
{"id": "C39", "title": "Bounded time in hysteresis zero crossing and level detectors", "statement": "zero_cross outputs 1 from the sample that rises above +hysteresis until the sample that falls below -hysteresis, and otherwise holds; peak() is the same latch between the envelope times sensitivity plus and minus hysteresis: at every time the output is decided by the last sample outside the hysteresis band (0 if none).", "quantifier": "all sample sequences", "why_tests_cant": "History dependent.", "anchors": ["q_lib/include/q/fx/feature_detection.hpp: zero_cross, peak"]}
{"id": "C40", "title": "Pitch bias picks a harmonic-consistent, stable frequency", "statement": "Feeding samples (and predict_frequency queries) to a pitch_detector in any order never aborts; get_frequency() is 0 (with periodicity 0) or positive, periodicity() stays in [0,1]; each frame's result is 0, the previous result, the measured frequency, or an integer multiple/submultiple of the measured frequency close to the current one (octave errors are folded back); the reported note jumps away from the current one only to the measured frequency and only when periodicity reaches the onset level, resetting the frame counter; is_note_shift() holds right after the frame that starts or moves the note and not after a frame that finds the same note again; indeterminate() holds exactly when no pitch is reported; predict_frequency does not disturb detection. (Refuted: that the frequency is always finite.)", "quantifier": "all sequences of incoming frequencies and periodicities", "why_tests_cant": "Stateful decision logic over unbounded histories.", "anchors": ["q_lib/include/q/pitch/pitch_detector.hpp: bias, operator()"]}
{"id": "C41", "title": "Audio channel views address exactly the right channel", "statement": "audio_channels/multi-channel views expose frames() samples for each of size() channels and index channel c to the c-th buffer; iteration visits each frame exactly once in order.", "quantifier": "all channel counts and frame counts", "why_tests_cant": "All sizes.", "anchors": ["q_lib/include/q/support/audio_stream.hpp: audio_channels, iterator_range"]}
{"id": "C42", "title": "MIDI input stream delivers events exactly once, in order", "statement": "Polling midi_input_stream::process/process_raw calls the processor exactly once per received event, in arrival order with its time stamp, and not at all when there is no event or the stream is invalid; a read error must not be taken for an event.", "quantifier": "all sequences of poll results", "why_tests_cant": "Device timing and read errors cannot be enumerated by tests.", "anchors": ["q_io/src/midi_stream.cpp: next", "q_io/include/q_io/midi_stream.hpp: process, process_raw"]}
{"id": "C43", "title": "The dual pitch detector only reports a pitch both polarities support, an octave at most from the running mean", "statement": "For every stream of samples and predictions dual_pitch_detector never fails; one of its detectors sees exactly the signal, the other its negation. The reported pitch only stays, becomes 0 when both detectors have lost the pitch, or moves to the reading nearer to the running mean while both have one; after the first report only to a reading strictly less than an octave from that mean, which then moves by 2/9 towards it. A prediction is 0 or a frequency both detectors predict within 10 percent; a new report discards it. A note an octave or more away from the mean is never reported, however long it lasts. (Refuted: when both detectors agree on a pitch it is the one reported, even after silence.)", "quantifier": "all histories of samples (NaN, infinities included) and predictions, all configurations", "why_tests_cant": "A statement about every history; the lock-out only shows in a particular sequence of notes.", "anchors": ["q_lib/include/q/pitch/dual_pitch_detector.hpp: dual_pitch_detector::operator(), within_octave, predict_frequency, compute_predicted_frequency"]}
{"id": "C44", "title": "Fast approximations stay within their error", "statement": "For every normal positive float below 2^125, fast_inverse(x) is 1/x within 5.06% and fast_div accordingly; fast_log2 is within 0.0574 of log2 for every normal positive float and never decreases as its argument grows; fast_log10 is within 0.0176 of log10; fast_pow2(p) is between 0.96 and 1.021 times 2^p for -125.9<=p<=128, never decreases, and is flushed to a positive subnormal below -126; fast_pow10 follows 10^x with an error that grows by 1.02% per unit; fast_exp3..9 are within their series remainder plus 2^-16 on [-1,1]. (Refuted stronger claims: fast_inverse handles negative numbers; fast_pow2 of a large argument is large.)", "quantifier": "every finite float in the stated ranges", "why_tests_cant": "there are 2^32 floats per function and the error depends on the bit pattern; tests sample a few", "anchors": ["q_lib/include/q/support/base.hpp: fast_inverse, fast_div, fast_log2, fast_pow2, fast_log10, fast_pow10, fast_exp3..9", "q_lib/include/q/detail/fast_math.hpp: fasterlog2, fasterpow2, fasterpow"]}
{"id": "C45", "title": "Fast trigonometric approximations and the allpass pole", "statement": "fastsin is within 0.0000512 of the sine for every float in [-pi,pi] and exactly odd; fasttan is within 0.00017 and fast_tan within 0.0012 of the tangent on [-pi/4,pi/4]; fast_rational_tanh is within 0.0242 of tanh on [-3,3], odd and never beyond 1.000001. A one_pole_allpass designed (or re-pivoted) for a frequency up to Nyquist therefore gets a pole within 0.00018 of the exact one, and a pole strictly inside the unit circle - a stable filter with unit gain at every frequency - unless the frequency is within 0.0003% of 0 or Nyquist.", "quantifier": "every finite float argument in the documented range, every pivot frequency (double) and sampling rate", "why_tests_cant": "The error of a polynomial approximation is attained at isolated points of a continuum of 2^30 floats, and the stability margin near 0 and Nyquist is a few units in the last place", "anchors": ["q_lib/include/q/detail/fast_math.hpp: fastsin, fasttan", "q_lib/include/q/support/base.hpp: fast_tan, fast_rational_tanh", "q_lib/include/q/fx/allpass.hpp: one_pole_allpass"]}
{"id": "C46", "title": "Signal conditioner: gate, compression and make-up gain", "statement": "For every sensible configuration (release times of two samples or more, compression ratio in [0,1], finite make-up gain) and every history of finite samples interleaved with threshold changes, a signal_conditioner never trips an assertion; signal_env() is at least |s|, jumps to peaks, decays otherwise and never exceeds the loudest input so far; gate() is open exactly when signal_env() exceeded the onset threshold and has not been below the release threshold since; gate_env() stays in [0,1] and moves towards 1 or 0 with the gate; the output is s*gate_env*compression*make-up gain up to rounding, has the sign of s, and is never louder than s times the make-up gain, the compression being 1 below the threshold and, in decibels, within 0.0004, 0.0184 or 0.5304 dB (by level) of the ideal curve (threshold minus level times one minus the ratio) above it; while no sample exceeds the onset threshold the output is exactly silent. bl_signal_conditioner is the same behind a band-pass filter that at most doubles the amplitude. (Refuted: infinite samples are handled.)", "quantifier": "every configuration, every finite sample history and every interleaving of threshold setters", "why_tests_cant": "The envelopes and the gate carry state over unbounded histories, and the decibel conversion asserts on negative zero and NaN, which only the history can produce", "anchors": ["q_lib/include/q/fx/signal_conditioner.hpp: signal_conditioner, bl_signal_conditioner", "q_lib/include/q/fx/noise_gate.hpp: basic_noise_gate", "q_lib/include/q/fx/envelope.hpp", "q_lib/include/q/fx/dynamic.hpp: compressor"]}
{"id": "C47", "title": "Smoothed and RMS envelope followers settle at the level", "statement": "For every hold time (1 to 2^29 samples) and every history of finite samples of magnitude 2^-40 to 2^40, the smoothed fast envelope follower's value is the mean of the fast follower's last hold outputs up to a stated rounding error that grows linearly with the number of samples; the RMS follower never fails, and its level is 20 log10 of the root of the corresponding mean square, with a floor of -60.5 dB below 10^-3; once a signal of constant magnitude a has lasted for hold samples and six hold periods, the level is within 0.00025 dB (a near 1), 0.0093 dB or 0.2702 dB of 20 log10(a). (Refuted: every finite sample is handled - a single sample of 2^64 overflows and the follower fails once it leaves the window; levels below -60.5 dB are reported.)", "quantifier": "every hold time, every history of finite samples within the range, every magnitude", "why_tests_cant": "The running sum carries rounding errors forward for ever, and the level passes through interpolated tables; no set of runs covers all histories", "anchors": ["q_lib/include/q/fx/envelope.hpp: basic_smoothed_fast_envelope_follower, fast_rms_envelope_follower", "q_lib/include/q/fx/moving_average.hpp: basic_moving_average", "q_lib/include/q/support/decibel.hpp: decibel"]}
{"id": "C48", "title": "Range mapping and the level crossfade", "statement": "map(y1,y2)(s) for s in [0,1] is finite, y1 exactly at 0, inside [min(y1,y2), max(y1,y2)] for s<1, monotone in s and within rounding of the straight line; level_crossfade returns a untouched unless the control level is below the pivot, and below it returns g*a+(1-g)*b up to rounding where g in decibels is the distance of the control below the pivot (0.0003 dB); the gain of a never falls when the control rises; a NaN control passes a. (Refuted stronger claim, which the header comment states: the input 1 is mapped to y2 itself.)", "quantifier": "all bounded endpoints, signals, finite controls in [0,1], all pivot and control levels", "why_tests_cant": "ranges over every pair of endpoints, every control value and every level; rounding can break betweenness or monotonicity at isolated values", "anchors": ["q_lib/include/q/fx/special.hpp: map, level_crossfade", "q_lib/include/q/support/base.hpp: linear_interpolate", "q_lib/include/q/support/decibel.hpp: as_float"]}
{"id": "C49", "title": "Dynamic smoother", "statement": "dynamic_smoother: the base coefficient is 2*gc/(1+gc), in [0,2], whether set at construction or by base_frequency; for inputs of magnitude at most B every output is finite and at most B*(1+2^-19), for every history and every interleaving of base-frequency changes; each step is two one-pole stages whose common gain is min(g0 + sensitivity*|band|, 1); for a constant input the output converges to it. (Refuted stronger claim: the output never overshoots the inputs.)", "quantifier": "all sensitivities, base frequencies, input histories and base-frequency changes", "why_tests_cant": "a nonlinear recursive filter: stability must hold for every history, not for sampled signals", "anchors": ["q_lib/include/q/fx/special.hpp: dynamic_smoother"]}
{"id": "C50", "title": "Resonant low-pass filter", "statement": "reso_filter: the output satisfies its two-pole difference equation; for 0<f<2, f!=1 and resonance 0<=r<1 both poles are inside the unit circle, DC passes with gain 1, Nyquist with f^2/((2-f)^2+2fr(2-f)), and for f<1 inputs of at most B give outputs of at most 4B/(1-r)^2; with r=1 an impulse never dies away and with r>1 it grows without bound; with r=0 the output never leaves the range of the inputs; after any history of samples, cutoff and resonance changes the coefficients are those of a filter built with the last settings and no setter alters the output; f==1 makes the first output NaN; in floats (f<=3/4, f(1-r)>=1/128) every output is finite, at most 17B/(1-r)^2, and tracks the exact filter; the coefficient of a frequency is 2 sin(pi f/sps) to 0.000104.", "quantifier": "all cutoffs, resonances, input signals and lengths, histories of setter calls, frequencies up to Nyquist", "why_tests_cant": "a recursive filter with feedback: stability and boundedness must hold for every signal of every length, and rounding accumulates", "anchors": ["q_lib/include/q/fx/lowpass.hpp: reso_filter", "q_lib/include/q/detail/fast_math.hpp: fastsin"]}
{"id": "C51", "title": "Recording to and playing back a WAV file", "statement": "Every write of a wav_writer reports all its samples written, and once it is destroyed a wav_reader opened on the file reports the given sample rate, channel count, length and position 0, and under every sequence of read, seek and restart delivers exactly the written samples (bit for bit) from the cursor, with position() being the cursor; a wav_memory on the file delivers its frames in order, then silence. The reader does the same for any 32-bit-float RIFF file with other (odd-sized, fact) chunks, an extended format chunk and trailing bytes, and opening ends for every file. (Refuted for recordings of 2^30 samples or more, for 16384 channels and rate 0; a file shorter than its header announces stalls below length().)", "quantifier": "all channel counts, rates, buffer sequences, operation sequences, chunk layouts, file contents", "why_tests_cant": "ranges over every file and every sequence of reads and seeks; size fields, padding and cursor arithmetic fail only for particular sizes", "anchors": ["q_io/src/audio_file.cpp: wav_writer, wav_reader, wav_base", "q_io/include/q_io/audio_file.hpp: wav_memory", "q_io/external/include/dr_wav.h: drwav_init_write__internal, drwav_write, drwav_uninit, drwav_init, drwav_read_f32, drwav_seek_to_sample"]}
{"id": "C52", "title": "A crash while recording leaves a prefix", "statement": "If the program stops after any number of the bytes a wav_writer sends to its file, from construction to destruction, the file either does not open or opens as a recording, in the right format, of the first so many of the samples written: never other samples, another order, or a wrong format. (Refuted: that samples already written are durable: until the writer is destroyed the file opens as empty.)", "quantifier": "all recordings and every crash point, byte by byte, including inside the update of the size fields at the end", "why_tests_cant": "every crash point of every recording: a test stops at a few", "anchors": ["q_io/src/audio_file.cpp: wav_writer, wav_base::~wav_base", "q_io/external/include/dr_wav.h: drwav_uninit, drwav_riff_chunk_size_riff, drwav_data_chunk_size_riff"]}
{"id": "C53", "title": "Streams are opened, used and closed correctly", "statement": "For every sequence of constructions, member calls and destructions of audio_stream objects (and MIDI streams), and whatever the library answers: PortAudio is initialised exactly once before everything else and terminated at the end; every stream that was opened is closed exactly once, when its object is destroyed, and never used afterwards; a stream is opened with the requested channels, rate, block size and the callback for those channels; an object whose stream could not be opened is inert and reports the library's error; if the program stops a started stream before destroying it, the callback, at every moment, finds the complete object it belongs to. (Refuted parts: destroying a running stream leaves a window in which the callback finds a half-destroyed object; error() of a valid stream is uninitialised; an output-only stream at the default rate dereferences a null pointer on a machine without an input device; a MIDI stream that could not be opened closes a null stream.)", "quantifier": "all programs (sequences of operations on any number of streams), all library answers, all callback schedules", "why_tests_cant": "any interleaving of object lives and callback moments; a test exercises a few, with one machine's devices", "anchors": ["q_io/src/audio_stream.cpp: port_audio_stream", "q_io/include/q_io/audio_stream.hpp: audio_stream", "q_io/src/audio_device.cpp: portaudio_init", "q_io/src/midi_stream.cpp: midi_input_stream"]}
{"id": "C54", "title": "The example programs", "statement": "The delay effects output their input on the left and, on the right, the feedback echo y[t] = s[t] + fb * y[t-c], whatever the sizes of the audio blocks, bounded for ever when the feedback is at most 7/8; the sine program outputs in frame t, on both channels, the sine of t times the frequency; the MIDI synthesizer produces one sample per frame for every interleaving of MIDI messages and frames, follows the envelope that note ons trigger and the note off of the last key releases, has the pitch of the last key without a phase jump, outputs numbers in [-1,1] as long as its filter is finite, and silence whenever its envelope has ended. (Refuted parts: the delay is not the one asked for but the next power of two in samples - 350 ms become 371.5 ms; a note on with velocity 0 does not release the key but takes it over.)", "quantifier": "all inputs, block sizes, feedback values, delay times, frequencies; all interleavings of MIDI messages and audio frames", "why_tests_cant": "every partition into blocks and every order of events; a test plays one tune", "anchors": ["example/delay.cpp: delay_processor", "example/io_delay.cpp: delay_processor", "example/sin_synth.cpp: sin_synth", "example/square_synth.cpp: my_square_synth, my_midi_processor"]}
{"id": "C55", "title": "The period and pitch detectors find the period of a periodic signal exactly", "statement": "For every signal whose conditioned version repeats every P samples with one pulse per period (it rises above zero once per period and later falls below the hysteresis level, and stays at or below zero until the next rise; any waveform inside the pulse and between, any duty cycle), fed into a freshly built period_detector - from its beginning or after silence of any length - whose minimum period is at most P and whose window holds two periods, every analysis (once the window starts inside the signal) reports period exactly P and periodicity exactly 1, the analysed bits are exactly the pulse pattern of the signal, and from one and a half windows plus one period after the onset (window + P samples if there is no leading silence) the result is there and stays at every later sample; pitch_detector then reports the float nearest to sps / P with periodicity 1. If P is above the minimum period, every prediction, made anywhere in the stream - during leading silence of any length too -, is -1 or exactly P, and exactly P from the end of a pulse (the second or a later one) to the end of the next if it was asked for at that moment; the pitch detector's and the dual pitch detector's predictions are 0 (nothing) or exactly the frequency sps / P, at every point of every history. If the negated signal has one pulse per period too, the dual pitch detector reports exactly sps / P with periodicity 1 at every sample from two and a half windows plus two periods after the onsets on, unless it has locked on to another octave before. (Refuted: a signal whose period is exactly the minimum is predicted likewise: it is measured right but predicted an octave low. Refuted without a condition on the window: with windows of 256 or 320 samples, long periods of short pulses are taken for false correlations and nothing is reported.)", "quantifier": "every pulse waveform, onset, period, duty cycle, window size, minimum period, hysteresis and number of samples", "why_tests_cant": "a test can only play a few waveforms and lengths; exactness for every period, waveform and stopping point is a statement about infinitely many signals", "anchors": ["q_lib/include/q/pitch/period_detector.hpp: period_detector::operator(), set_bitstream, autocorrelate, fundamental", "q_lib/include/q/utility/zero_crossing.hpp: zero_crossing::operator(), update_state, shift", "q_lib/include/q/pitch/pitch_detector.hpp: pitch_detector::operator(), get_frequency, bias", "q_lib/include/q/utility/bitstream_acf.hpp: bitstream_acf::operator()", "q_lib/include/q/pitch/dual_pitch_detector.hpp: dual_pitch_detector::operator(), predict_frequency, compute_predicted_frequency"]}
