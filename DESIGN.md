# Formal model of cycfi/Q in Rocq (Coq 8.16.1)

## 1. Method

* The model is ordinary, total, computable Gallina (lists, `N`/`Z`, records,
  `option`), one definition per C++ function, each with a comment citing the
  file and lines in /repo it models and any simplification made there.
* Machine integers: `N`/`Z` with explicit `mod 2^k` wherever the code can wrap.
  Signed overflow, out-of-range indexing, shifts by too much, conversions of a
  float outside the target type, reads of uninitialised members and failed
  assertions are a distinct outcome (`None`), never silently totalised. (The
  period detector's float-to-int conversions instead take the target's result
  as a parameter `oob`, so the theorems hold for whatever the target does.)
* Floating point is IEEE 754 binary32/binary64 with Flocq's
  `IEEE754.BinarySingleNaN` (`Float.v`): the executable operations `Bplus`,
  `Bmult`, `Bdiv`, ... with round to nearest even, so NaN, infinities, signed
  zeros, subnormals and overflow behave as the standard says. Theorems about
  numbers are about `B2R` of the computed floats.
* Two kinds of code are stated twice: *control logic* (hysteresis, windows,
  medians) over an abstract order with the instance for binary32 (with NaN
  where the code lets it through), and *linear DSP* (FFT, biquad, allpass) over a
  record of arithmetic operations, instantiated with exact reals for the
  algebraic identities and with binary32 for the rounding-error theorems.
* Layout: `X_Model.v` (definitions only), `X_Spec.v` (a small independent
  specification), `X_Proof.v` (proofs), `X_Props.v` (the property theorems, an
  `Example` or concrete run showing their hypotheses are met, and
  `Print Assumptions`). `seeded/LOG.jsonl` records the wrong programs the
  theorems were tested against.

## 2. Trusted base

* Coq's kernel (8.16.1) including `vm_compute`; the axioms listed in section 5;
  the reading of /repo recorded in the comments of the `*_Model.v` files.
* C++ semantics used: 64-bit `size_t`, 32-bit two's complement `int`, IEEE 754
  binary32 `float` and binary64 `double`, round to nearest even,
  `FLT_EVAL_METHOD` 0 (no excess precision), no contraction of a*b+c into an FMA,
  no `-ffast-math`.
* Decimal literals are the nearest float or double; the few `long double`
  literals and intermediate results (`2_pi`, `_dB`, `_ms` ..) are the nearest
  double, or, where stated in the definition's comment, the exact real.
* The `infra` submodule is absent from /repo. Assumed semantics of what Q uses:
  `smallest_pow2(n)` = least power of two >= n; `is_pow2`; `pow2<T>(n)` = 2^n;
  `int_min/int_max` = numeric limits; `promote(float)=double`,
  `promote(int32)=int64`; `natural_uint` is a 64-bit unsigned; `CYCFI_ASSERT`
  is an assertion (failure modelled as `None`).
* libm: `sqrt` is correctly rounded (IEEE); `floor`, `round`, `fabs`, `min`,
  `max` exact. `sin`, `cos`, `sinh`, `pow` appear only in the design formulas of the
  biquads, the sine table and the note table: the biquad designs are proved
  for the exact functions and, in the float theorems, for any coefficients within
  a stated distance of the exact ones; the tables are the constants in the source.
* Type punning (detail/fast_math.hpp) reads the IEEE encoding; NaN payloads are not
  modelled.
* External libraries: PortAudio and PortMidi are contracts stated at
  their use in `Io_Model.v` (device count and device info as a table; polls and
  reads returning a prefix of the queue or an error code). dr_wav is a contract in
  `Io_Model.v` (sequential reads) and modelled down to the bytes, over stdio, in
  `Wav_Model.v` for uncompressed RIFF with 32-bit float samples; C51 proves that
  this model satisfies the contract. stdio (fread, fwrite, fseek on a byte sequence,
  a little-endian host) is trusted; ADPCM, Wave64 and sample conversion are not modelled.

## 3. Per property: what is modelled and how it is proved

Theorem names are in MANIFEST.json; every theorem `Cnn_...` is in a file `*_Props.v`.
A theorem named `_refuted` proves that a claim one would expect is *false* of the code,
by a concrete execution of the model; `_partial` marks a theorem weaker than its property.

| id | title | what is modelled | how it is proved |
|----|-------|------------------|------------------|
| C01 | Ring buffer is a sliding list of the most recent values | utility/ring_buffer.hpp: 64-bit position, mask, vector; any element type | refinement to the list of the last pushes; for every operation sequence; push count unbounded (the position wraps mod 2^64) |
| C02 | Integer delay line delays by exactly the requested number of samples | fx/delay.hpp nf_delay, delay1, delay2; buffer size from smallest_pow2 | from C01, induction over the signal; delay longer than the buffer wraps (theorem), full-scale delay refuted |
| C03 | Fractional delay interpolates between the two neighbouring past samples | utility/interpolation.hpp, fractional_ring_buffer, fx/delay.hpp in binary32 | C01 + Flocq: exactness of the fraction, result between the neighbours; last slot refuted |
| C04 | Bitset range write touches exactly the requested range | utility/bitset.hpp range set/get/clear, words of any width | refinement to a boolean function; testbit lemmas |
| C05 | Bitset single-bit access | bitset single bit set/get with the int shift | proved on the sound indices (_partial); false elsewhere: three refutations |
| C06 | Bitstream autocorrelation counts mismatching bits | utility/bitstream_acf.hpp with popcount | word-shifting lemma; sum of popcounts = mismatch count of the bit streams |
| C07 | Zero-crossing collector never overruns and keeps edges ordered | utility/zero_crossing.hpp, binary32 samples, int frame counter | inductive invariant over all sample sequences |
| C08 | Period detection never reads or writes outside its buffers | pitch/period_detector.hpp over C04/C06/C07's models | invariants for every history; the bits equal the edges; stale values and undefined conversions refuted |
| C09 | Moving maximum equals the maximum of the window | fx/moving_maximum.hpp tournament tree | tree invariant; induction over inputs; generic order and binary32 instance |
| C10 | Integer moving sum is exact forever | fx/moving_average.hpp integer moving sum, machine ints | C01 + telescoping |
| C11 | Integer moving average is the truncated mean | integer moving average, division converted to unsigned | proved for non-negative sums (_partial), refuted otherwise |
| C12 | Float moving sum does not drift on PCM signals | binary32 input, binary64 accumulator | Flocq: every operation exact on PCM; general floats: drift bound n(W+1)B 2^-51; exactness in general refuted |
| C13 | Median filter returns the median of the last three samples | fx/median.hpp | case analysis and induction; generic order and binary32 |
| C14 | MIDI messages round-trip their fields | support/midi.hpp | bit lemmas over all bytes |
| C15 | MIDI dispatch invokes exactly the matching handler with the decoded fields | support/midi.hpp dispatch | case analysis over all status bytes; system messages refuted |
| C16 | MIDI note names and numbers are inverse | support/midi.hpp note names | parser/printer round trip over all numbers; ill-formed names refuted |
| C17 | Phase accumulator advances exactly and wraps once per cycle | support/phase.hpp: phase, phase_iterator mod 2^32; frequency to step in binary64 | modular arithmetic; induction |
| C18 | One-shot phase iterator saturates at the end of the cycle | one_shot_phase_iterator | induction |
| C19 | Basic oscillators stay in [-1, 1] | synth/saw, square, pulse, triangle, sin (+ antialiasing.hpp, table) | Flocq bounds for every phase and step; table sweep |
| C20 | ADSR envelope state machine | synth/envelope.hpp ADSR in binary32 | inductive invariants over every event/sample history |
| C21 | Envelope followers stay between their input and state extremes | fx/envelope.hpp envelope_follower, peak_envelope_follower, their coefficients (fast_exp3) | Flocq bounds; fast_exp3 value computed in binary32/64 |
| C22 | Fast envelope follower holds a windowed peak | fast_envelope_follower with 16-bit counter | windowed maximum invariant; counter wrap and narrowing refuted |
| C23 | Dynamics processors only act on the right side of the threshold | fx/dynamic.hpp in binary32, agc in binary64 | Flocq inequalities against a real curve |
| C24 | Noise gate hysteresis | fx/noise_gate.hpp (all of it: constructors, setters, both forms of operator(), in binary32) | induction over histories of samples and setter calls; the window of differences telescopes; exact for 24-bit envelopes, with an error margin for all floats; the naive reading refuted |
| C25 | Schmitt trigger and window comparator have hysteresis | fx/feature_detection.hpp schmitt_trigger, window_comparator | history specification; generic order and binary32 |
| C26 | Monostable pulses last exactly the configured time | fx/special.hpp monostable, rising edge | counter invariant |
| C27 | Differentiator and integrator are discrete difference and sum | fx/special.hpp differentiator, central_difference, integrator | telescoping sums; generic arithmetic and binary32 |
| C28 | Clip and soft clip bound the signal | fx/waveshaper.hpp in binary32 | Flocq bounds, monotonicity, NaN |
| C29 | One-pole filters are bounded and settle | fx/lowpass.hpp, exp moving averages, dc_block in binary32; the fixed-point one in int | Flocq contraction arguments; integer settling; stability refuted where false |
| C30 | One-pole allpass preserves energy | fx/allpass.hpp, hilbert of fx/special.hpp, exact reals and binary32 | energy identity by induction (reals); rounding bound for floats |
| C31 | Biquads are linear, time invariant and have their designed response | fx/biquad.hpp and every cookbook design, exact reals and binary32 | difference equation, response identities (complex algebra), pole radius, BIBO bound; per-step float error; binary32 coefficients |
| C32 | FFT computes the discrete Fourier transform | fft/fft.hpp over an arithmetic record | exact: equals the DFT (induction on log2 n, bit reversal); bounds for any arithmetic; in double: sine series error, twiddle recurrence error, error induction over the levels (Flocq) |
| C33 | Fast random generator range and full period | support/base.hpp fast random generator (LCG) | Hull-Dobell by powers of two: full period |
| C34 | Decibel conversions stay in bounds, are monotone and accurate | detail/db_table.hpp, support/decibel.hpp, binary32 index path | table sweeps lifted by monotonicity; ln enclosures in Z; Flocq |
| C35 | Decibel, duration, frequency and interval values form an ordered additive group | support/value.hpp, decibel, duration, frequency, interval in binary64 | IEEE comparisons, rounding-exactness conditions; group laws refuted in general |
| C36 | WAV memory source streams the file in order | q_io/audio_file.hpp wav_memory over dr_wav's contract | refinement to the file's frames |
| C37 | Device enumeration is idempotent | q_io device lists over PortAudio/PortMidi contracts | proved where true; refuted elsewhere (_partial) |
| C38 | Musical note frequencies double per octave | support/notes.hpp | sweep over all notes in binary64/32 |
| C39 | Bounded time in hysteresis zero crossing and level detectors | fx/feature_detection.hpp zero_cross, peak | history specification |
| C40 | Pitch bias picks a harmonic-consistent, stable frequency | pitch/pitch_detector.hpp bias logic | invariant over every history; case analysis in binary32 |
| C41 | Audio channel views address exactly the right channel | support/audio_stream.hpp channel views | list indexing |
| C42 | MIDI input stream delivers events exactly once, in order | q_io/midi_stream.hpp over PortMidi's contract | proved when polls do not fail (_partial); error handling refuted |
| C43 | The dual pitch detector only reports a pitch both polarities support, an octave at most from the running mean | pitch/dual_pitch_detector.hpp | invariant over every history |
| C44 | Fast approximations stay within their error | detail/fast_math.hpp fast_log2, pow2, exp, inverse, division via IEEE encodings | bit-level lemmas, polynomial bounds in R, Flocq rounding bounds for every float |
| C45 | Fast trigonometric approximations and the allpass pole | fast_sin, fast_tan, fast_tanh, ap_pole | same, plus Taylor enclosures of sin/tan/tanh |
| C46 | Signal conditioner: gate, compression and make-up gain | fx/signal_conditioner.hpp, noise_gate, envelopes, compressor, decibel | invariant over every history and setter interleaving; gain curve accuracy from C34 |
| C47 | Smoothed and RMS envelope followers settle at the level | fx/envelope.hpp smoothed and RMS followers | C12's drift bound, C22's window, C34's accuracy |
| C48 | Range mapping and the level crossfade | fx/special.hpp map, level_crossfade | interpolation error lemmas; C34's accuracy and monotonicity for the gain |
| C49 | Dynamic smoother | fx/special.hpp dynamic_smoother | invariant over every history in binary32, contraction for constant input |
| C50 | Resonant low-pass filter | fx/lowpass.hpp reso_filter | two-pole recurrence, explicit pole radius, quadratic invariant of the free motion; perturbed recurrence in binary32 |
| C51 | Recording to and playing back a WAV file | q_io/src/audio_file.cpp wav_writer, wav_reader, wav_memory; the dr_wav.h functions they call (RIFF, 32-bit float), byte by byte over stdio | layout lemma for the written image, parser lemmas skipping arbitrary chunks, reader invariant (cursor), simulation with the sample-level wav_memory of C36 |
| C52 | A crash while recording leaves a prefix | the same writer as a log of stdio calls, split into single bytes | case analysis on the crash point over the image; torn little-endian size fields are sizes of fewer whole samples |
| C53 | Streams are opened, used and closed correctly | q_io/src/audio_stream.cpp constructors, members, destructor; audio_device.cpp portaudio_init; midi_stream.cpp: as the sequence of library calls they make | the library's rules as a separate automaton on call sequences (Stream_Spec); simulation invariant: its open streams are exactly the live valid objects; a running stream's callback may come at every moment |
| C54 | The example programs | example/delay.cpp, io_delay.cpp, sin_synth.cpp, square_synth.cpp: the callbacks and MIDI handlers, over the models of the classes they use; MIDI and audio calls interleave atomically | ring-buffer refinement (C01) gives the echo recurrence; invariant of envelope, phase and key over all event sequences; calm filter under zero cutoff |
| C55 | The period and pitch detectors find the period of a periodic signal exactly | pitch/period_detector.hpp, utility/zero_crossing.hpp, pitch/pitch_detector.hpp and pitch/dual_pitch_detector.hpp (reports and predictions) on periodic signals | invariant of the edge collector on a train of identical pulses (positions modulo P), the window's bits are the pulse pattern, late onset: during silence the collector restarts every half window, so the onset lands in a known half window and only the first window can be dirty; mismatches 0 at lag P and nonzero at P/2, evaluation of autocorrelate; binary32 for the values; predictions: the neighbouring edges of the invariant in every state, induction over histories of samples and predictions (no edges, hence no prediction, during leading silence); dual reports: simulation (predictions leave the reports alone) brings the settled readings of both detectors into every history, then induction over the history with the running mean kept within an octave by its float averaging |

## 4. What is not modelled, and what is simplified

* Not modelled: the moment at which the audio thread runs (C53 models the life cycle of the
  stream and MIDI objects, with any interleaving of calls; the content of each callback is
  the sequence of calls it makes), PortAudio/PortMidi internals, dr_wav's other formats,
  GUI/plug-in hosts, `example/` (other than the four programs of C54) and `test/` programs, memory allocation failure,
  performance, `iostream` output; the constructors of `signal_conditioner` and the detectors are modelled
  with the float configuration values they compute.
* FFT: equality with the DFT is proved over exact reals with ideal trigonometry, memory safety
  for any arithmetic, and an error bound for the code in double with its own sine series
  (C32_fft_double_accuracy), evaluated in source order without fused multiply-add.
* Biquad/allpass/hilbert: identities over exact reals; per-step and
  long-run rounding bounds for binary32 (C30_float, C31_float, C31_float_blocks).
* The bits of float-to-int conversions outside the range (period detector) are a
  parameter.
* Partial properties: C05, C11, C37, C42 are false of the code as listed; the
  true part is proved and the rest refuted. C24's windowed gate is proved up
  to its first opening, and refuted after.

### Findings (expected properties the theorems refute)

bitset set() of bit 31 and above sets other bits, index size() is not rejected; bitset range
writes with a wrapping end; full-scale delay of nf_delay reads the newest sample; fractional delay
at the last slot; single-word ACF; zero-crossing keeps stale edges; integer moving_average of a
negative sum divides as unsigned; moving_sum fill leaves a residual; midi channel not masked;
system messages are not dispatched; note names with negative octave or bad letter; frequency above
the sampling rate has no phase step; triangle/square glitches at extreme steps; ADSR release may
never reach off, legato reads an uninitialised level; attack shorter than a sample; fast envelope
follower's 16-bit counter; agc exceeds its maximum; windowed noise gate reopens by a stale value;
one-pole filter not stable up to Nyquist; shelving filters ignore q; float coefficients put poles outside
the unit circle; a2db(-0) asserts; unit arithmetic is not a group in floats; wav_memory restart keeps
buffered frames; device handles dangle and midi_device::list() grows; midi_input_stream takes an error
code for an event; E-flat's frequency; pitch detectors can report infinities; fast_pow2 overflows;
an infinite sample breaks the signal conditioner; RMS follower fails after a huge sample and has a
floor of -60.5 dB; destroying a running stream lets the callback find a half-destroyed object; error() of a valid
stream is uninitialised; a MIDI stream that failed to open closes a null stream; a recording interrupted by a crash
keeps an empty or stale size; the delay effects delay by the next power of two; the MIDI synthesizer takes a note on
of velocity 0 for a new note.

## 5. Print Assumptions

Every `*_Props.v` ends each theorem with `Print Assumptions`. The results fall into these
groups (all axioms are the standard library's; none is added here):

* **Closed under the global context** (116 theorems): C01 ring_buffer_refines_list, ring_buffer_history; C02 delay_exact, delay_wraps, full_scale_delay_refuted, delay1_delay2, reads; C04 bitset_make, bitset_range_set, bitset_clear, range_set_wrap_refuted; C05 bitset_set_bit_partial, bit31_of_wide_words, index_beyond_size_ignored, bitset_set_bit31_refuted, bitset_set_high_bit_refuted, bitset_index_size_refuted; C06 acf_counts_mismatches, acf_zero_at_period, acf_single_word_refuted; C09 moving_maximum; C10 int_moving_sum_exact, call_returns_sum; C11 int_average_partial, int_average_power_of_two, int_average_negative, int_average_negative_refuted, average_zero_window_refuted; C13 median3; C14 message_roundtrip, messages_distinct, from_raw, two_byte_constructors, channel_range_refuted; C15 dispatch_voice, dispatch_any_voice_status, dispatch_ignores_non_status, system_messages_refuted, process_in_order; C16 note_name_roundtrip, note_names_unique, note_number_parses, note_enum, negative_octave_refuted, bad_letter_refuted; C17 phase_accumulates, first_last, first_counts_cycles, history; C18 one_shot_saturates, history; C24 noise_gate; C25 schmitt_trigger, window_comparator; C26 monostable, monostable_zero, rising_edge; C27 differentiator, central_difference, fast_downsample, integrator; C29 fixed_point_bounded, fixed_point_settles; C32 fft_short_overrun; C33 rand_range, rand_full_period, rand_reaches_every_seed; C35 nan_unordered; C36 wav_memory_streams_in_order, reposition_takes_effect_after_buffer, restart_rewinds_refuted, restart_rewinds_unbuffered, unopened_file_refuted, num_channels, buff_size_zero_delays_one_frame, position_is_read_ahead, string_constructor_buff_size_refuted; C37 audio_list_idempotent, audio_list_after_count_change, audio_get_by_id_partial, audio_get_is_ith_usable, audio_get_by_id_refuted, audio_handles_dangle_refuted, audio_hotplug_refuted, midi_list_grows, midi_list_idempotent_refuted; C39 zero_cross, peak; C41 channel_view, frames_visited_once_in_order, process_isolates_channels, callback_forwards_buffers; C42 midi_stream_delivers_in_order_partial, delivery_until_first_error, invalid_stream_is_silent, read_error_refuted; C51 record_and_reopen, file_bytes, record_and_play_back, any_float_file, open_ends, long_recording_refuted, unreadable_formats_refuted, truncated_file_stalls; C52 crash_leaves_a_prefix, durable_before_close_refuted; C53 every_call_allowed, nothing_left_open, callback_finds_its_object, destroying_a_running_stream_refuted, opens_what_was_asked, invalid_stream_is_inert, error_of_valid_stream_refuted, output_only_needs_input_device_refuted, midi_calls_allowed, midi_closes_null_refuted.
* **sig_forall_dec, functional_extensionality_dep** (10 theorems): C30 one_pole_energy, polyphase_energy, hilbert_energy; C31 difference_equation, retuned, linear, time_invariant; C50 difference_equation, resonance_one_or_more, no_resonance_no_overshoot.
* **sig_forall_dec, sig_not_dec, functional_extensionality_dep** (5 theorems): C30 pivot; C31 bounded, pole_radius; C32 fft_is_dft; C50 stable.
* **sig_forall_dec, sig_not_dec, classic, functional_extensionality_dep** (240 theorems): C03 fractional_delay, fractional_delay_wraps, no_interpolation, last_slot_refuted; C07 zero_crossing, stale_edge_refuted, fractional_period_finite_refuted, fractional_period_value; C08 period_detector, bits_exact, stale_edge_fills_bits_refuted, undefined_conversion_refuted, period_at_least_min_refuted, prediction_harmless, prediction_fresh, prediction_repeated, fundamental_kept; C09 moving_maximum_float; C12 float_drift_bound, general_floats_refuted, float_moving_sum_no_drift, fill_residual_refuted; C13 median3_float; C17 frequency_to_step, frequency_range_refuted, phase_to_turns, float_turns_refuted; C19 basic_saw, basic_square_pulse, basic_triangle, triangle_undefined_refuted, saw, square, square_glitch_refuted, pulse, triangle, sine, width_to_phase; C20 output_range, always_defined, phase_order, events, attack_exit, off_is_silent, shape, step_values, parameters, note_off_level, attack_completes, decay_completes, release_completes, legato_jumps, note_release_unreachable, long_decay_never_ends_refuted, release_never_off_refuted, legato_reads_uninitialised_refuted; C21 envelope_follower_step, envelope_follower_range, peak_follower, coefficients, coefficient_value, setters, short_attack_refuted; C22 fast_envelope_follower, counter_wrap_refuted, hold_narrowed_refuted; C23 compressor, expander, soft_knee_outside, soft_knee_inside, setters, agc, agc_holds_max_refuted; C24 noise_gate_float, windowed_gate, windowed_gate_floats, plain_gate_history, default_onset, reopening_refuted; C25 schmitt_trigger_float, window_comparator_float; C28 clip, soft_clip_bounded, soft_clip_monotone, soft_clip_odd, soft_clip_polynomial, nan_passes; C29 output_in_range, constant_input_converges, cutoff_coefficients, exp_moving_average_bounded, exp_moving_average_converges, dc_block_bounded, dc_block_removes_dc, stable_below_nyquist_refuted, length_keeps_unity_gain_refuted; C30 unit_gain, hilbert_unit_gain, float, hilbert_float; C31 stable, lowpass, highpass, bandpass_csg, bandpass_cpg, notch, allpass, peaking, lowshelf, highshelf, gain_limits, bandpass_half_power, bandwidth, shelf_q_matters_refuted, float, float_coefficients, float_allpass_exact, float_blocks, float_poles_inside_refuted; C32 fft_in_bounds, fft_double_accuracy, series_accuracy; C34 a2db_accuracy, db2a_accuracy, level_roundtrip, a2db_total, a2db_monotone, a2db_fixed_points, a2db_domain, a2db_minus_zero_refuted, db2a_total, db2a_monotone, db2a_nan, decibel_roundtrip_total; C35 comparisons, nearest, forms_agree, exact, laws, monotone, whole_numbers, add_sub_error, group_laws_refuted, reciprocal, period_order, zero_frequency, round_trip_refuted, literals, ms_literal_refuted; C38 equal_temperament, octave_doubles, strictly_increasing, A4, outer_keys_refuted, named_notes, e_flat_refuted; C39 zero_cross_float, peak_float; C40 every_history, step, jump_is_a_shift, candidates, queries, harmonics_do_not_shift, predict_frequency, finite_frequency_refuted; C43 every_history, step, reports, octave_lock, prediction, report_clears_prediction, agreement_refuted; C44 inverse, inverse_of_negative_refuted, division, log2, log10, log2_monotone, pow2, pow2_flushes, pow2_monotone, pow2_overflow_refuted, pow10, exp_series; C45 sine, tangent, hyperbolic_tangent, allpass_pole, allpass_stable, allpass_any_angle; C46 compression_curve, default_configuration, conditioner, envelopes, gate, noise_is_silenced, band_limited, infinite_input_refuted; C47 smoothed_follower, smoothed_settles, rms_level, rms_settles, rms_accuracy, all_finite_inputs_refuted, full_range_refuted; C48 map, one_maps_to_y2_refuted, crossfade, nan_control, crossfade_monotone; C49 base_coefficient, bounded, step, settles, no_overshoot_refuted; C50 setters, cutoff_one, float, frequency; C54 delay_effect, delay_bounded, delay_time_refuted, sine, synth, synth_step, silence, velocity_zero_refuted; C55 dual_report, period_detected, every_analysis, window_exact, witness, any_window_refuted, pitch_detected, prediction, prediction_every_pulse, prediction_at_minimum_refuted, pitch_prediction, dual_prediction.

Full names: ClassicalDedekindReals.sig_forall_dec and sig_not_dec (the construction of R),
Classical_Prop.classic, FunctionalExtensionality.functional_extensionality_dep. They enter with
the real numbers (Coq.Reals, used by Flocq to give binary floats a value).
