{
"C01": [
"`Sample::write/read`, LE codecs",
"arithmetic on byte decompositions, all values"
],
"C02": [
"`narrow_to_*`, `write_sample` on stream state",
"case analysis, range lemmas"
],
"C03": [
"`write_headers`, `read_fmt_chunk`, `read_until_data`",
"symbolic execution of the parser on the symbolic header"
],
"C04": [
"`WavWriter`/`WavReader` state machines",
"induction over sample list, stream invariant"
],
"C05": [
"`update_header`",
"invariant: stream = header ++ encoded samples"
],
"C06": [
"`Drop`, `finalize`",
"equality of final streams in every state"
],
"C07": [
"`flush`",
"invariant over op lists; erasure of flush"
],
"C08": [
"`flush` early return",
"refutation witness + general description"
],
"C09": [
"`read_append`, `new_append`",
"C04 machinery; induction over sessions"
],
"C10": [
"BufReader model",
"simulation: buffered reader refines plain stream"
],
"C100": [
"audio block of the engine over total memory",
"symbolic execution; invariants; effects universally quantified"
],
"C101": [
"audio block of the engine over total memory",
"symbolic execution; invariants; effects universally quantified"
],
"C102": [
"audio block of the engine over total memory",
"symbolic execution; invariants; effects universally quantified"
],
"C103": [
"audio block of the engine over total memory",
"symbolic execution; invariants; effects universally quantified"
],
"C104": [
"audio block of the engine over total memory",
"symbolic execution; invariants; effects universally quantified"
],
"C105": [
"audio block of the engine over total memory",
"symbolic execution; invariants; effects universally quantified"
],
"C106": [
"audio block of the engine over total memory",
"symbolic execution; invariants; effects universally quantified"
],
"C107": [
"fmt chunk acceptance",
"symbolic execution over all header fields"
],
"C108": [
"Surge chunks clm/srge/srgo/smpl",
"symbolic execution over all field values"
],
"C109": [
"biquad coefficient design",
"trigonometry: stability triangle; BIBO by diagonalisation over C"
],
"C11": [
"`SampleWriter16`",
"induction, equality with `write_sample` fold"
],
"C110": [
"biquad processing variants",
"simulation between variants, superposition"
],
"C111": [
"biquad designs at DC, Nyquist, centre",
"trigonometric identities"
],
"C112": [
"settled biquad frequency response",
"steady state plus geometric transient"
],
"C113": [
"biquad parameters from pitch",
"exponential identities"
],
"C114": [
"biquad morph",
"universal refutation"
],
"C115": [
"time unit in binary64",
"rounding-error analysis with Flocq; history induction"
],
"C116": [
"quadrature oscillator",
"rotation algebra, induction over histories"
],
"C117": [
"vectorised SVF stability",
"Lyapunov function / Jury criterion"
],
"C118": [
"SVF response",
"steady-state algebra"
],
"C119": [
"coefficient smoothing",
"closed form of the recurrence"
],
"C12": [
"`iter_next`, `iter_size_hint`",
"induction on remaining samples"
],
"C120": [
"clip/tanh shapers",
"binary32 case analysis for the range, real analysis for the curve"
],
"C121": [
"digi shaper",
"round-to-even arithmetic"
],
"C122": [
"asym/sine shapers",
"universal refutation via the table look-up"
],
"C123": [
"quad filter chain, 4 lanes against 1 lane",
"lane-wise simulation, induction over the block"
],
"C124": [
"write_outputs masks",
"induction over the block"
],
"C125": [
"ramps of the eight configurations",
"closed form by induction"
],
"C126": [
"dispatch",
"case analysis over Option units"
],
"C127": [
"configurations without units",
"symbolic execution of a sample, induction"
],
"C128": [
"feedback path",
"softclip range, interval bounds"
],
"C129": [
"set_quad_filterblock / sync",
"case analysis on the lane; composition with C125"
],
"C13": [
"same, truncated stream",
"induction"
],
"C130": [
"balance, pan",
"real algebra"
],
"C14": [
"whole header parser",
"refutation (data before fmt), plus no-panic theorem for files without Surge chunks and with fmt first"
],
"C15": [
"`read_until_data` loop",
"induction over chunk list"
],
"C16": [
"`seek`",
"arithmetic on position + C12"
],
"C17": [
"`new`+`Drop`",
"refutation; partial for return value"
],
"C18": [
"`read_cue_chunk`",
"induction over cue list; refute sentinel case"
],
"C19": [
"`HoldPedalUnit`",
"partition/permutation lemmas; refutation for `reset`"
],
"C20": [
"`HoldPedalUnit`",
"partition/permutation lemmas; refutation for `reset`"
],
"C21": [
"CC dispatch",
"case analysis; refutation for CC 99"
],
"C22": [
"CC dispatch",
"case analysis; refutation for CC 99"
],
"C23": [
"`MIDIUnitHandle`",
"get/set laws over histories"
],
"C24": [
"`calculate_channel_mask`",
"case analysis"
],
"C25": [
"`Vec::remove` loops",
"induction; refutation for >=2 voices"
],
"C26": [
"`Vec::remove` loops",
"induction; refutation for >=2 voices"
],
"C27": [
"`softkill_voice`",
"loop invariant (argmax)"
],
"C28": [
"`release_monophonic` scan",
"loop invariant"
],
"C29": [
"`handle_boolsolo`",
"case analysis"
],
"C30": [
"step sequencer",
"bit lemmas, induction, string round trip"
],
"C31": [
"step sequencer",
"bit lemmas, induction, string round trip"
],
"C32": [
"step sequencer",
"bit lemmas, induction, string round trip"
],
"C33": [
"step sequencer",
"bit lemmas, induction, string round trip"
],
"C34": [
"scale parser",
"general refutation of the parser"
],
"C35": [
"`retune_to_scale`",
"algebra over Q/Z"
],
"C36": [
"`ParamRT`",
"invariant; refutations for Int/Bool set"
],
"C37": [
"`ParamRT`",
"invariant; refutations for Int/Bool set"
],
"C38": [
"`ParamRT`",
"invariant; refutations for Int/Bool set"
],
"C39": [
"lag, lipol, trixpan",
"closed forms over R/Q, induction on steps"
],
"C40": [
"lag, lipol, trixpan",
"closed forms over R/Q, induction on steps"
],
"C41": [
"lag, lipol, trixpan",
"closed forms over R/Q, induction on steps"
],
"C42": [
"lag, lipol, trixpan",
"closed forms over R/Q, induction on steps"
],
"C43": [
"`process_ringout`",
"induction over input history"
],
"C44": [
"LFO/ADSR state machines",
"invariants, termination measure"
],
"C45": [
"LFO/ADSR state machines",
"invariants, termination measure"
],
"C46": [
"dual delay buffer",
"refinement to history function"
],
"C47": [
"allpass circular buffer",
"refinement to recurrence"
],
"C48": [
"wavetable",
"index arithmetic, invariants"
],
"C49": [
"wavetable",
"index arithmetic, invariants"
],
"C50": [
"wavetable",
"index arithmetic, invariants"
],
"C51": [
"sample rate handle",
"case analysis / refutation"
],
"C52": [
"surge-math",
"algebra, bit lemmas"
],
"C53": [
"surge-math",
"algebra, bit lemmas"
],
"C54": [
"surge-math",
"algebra, bit lemmas"
],
"C55": [
"unison",
"algebra over Q"
],
"C56": [
"modulation",
"algebra, finite enumeration"
],
"C57": [
"modulation",
"algebra, finite enumeration"
],
"C58": [
"`read_next_chunk` on fact/uhWT chunks",
"symbolic execution over all payloads"
],
"C59": [
"chunk skipping",
"arithmetic on stream positions"
],
"C60": [
"`default_default!` recursion",
"induction on stack depth"
],
"C61": [
"`play_note`, `create_voice`",
"case analysis over poly modes; invariant on the voice list"
],
"C62": [
"`purge_holdbuffer` on both scenes",
"universal description over buffers"
],
"C63": [
"MIDI learn codes",
"arithmetic on code truncation"
],
"C64": [
"finished-voice removal in the block",
"induction over the index list"
],
"C65": [
"MIDI channel state",
"get/set laws over histories"
],
"C66": [
"step sequencer `advance`, masks, loops, probabilities",
"case analysis, modular arithmetic, invariants over histories"
],
"C67": [
"step sequencer `advance`, masks, loops, probabilities",
"case analysis, modular arithmetic, invariants over histories"
],
"C68": [
"step sequencer `advance`, masks, loops, probabilities",
"case analysis, modular arithmetic, invariants over histories"
],
"C69": [
"step sequencer `advance`, masks, loops, probabilities",
"case analysis, modular arithmetic, invariants over histories"
],
"C70": [
"SSE block routines over total memory",
"loop invariants; refinement to pointwise maps"
],
"C71": [
"absolute maxima",
"bit-pattern lemmas in binary32"
],
"C72": [
"surge-math scalar helpers",
"real algebra / binary32 lemmas / bit lemmas"
],
"C73": [
"surge-math scalar helpers",
"real algebra / binary32 lemmas / bit lemmas"
],
"C74": [
"surge-math scalar helpers",
"real algebra / binary32 lemmas / bit lemmas"
],
"C75": [
"surge-math scalar helpers",
"real algebra / binary32 lemmas / bit lemmas"
],
"C76": [
"surge-math scalar helpers",
"real algebra / binary32 lemmas / bit lemmas"
],
"C77": [
"surge-math scalar helpers",
"real algebra / binary32 lemmas / bit lemmas"
],
"C78": [
"surge-param switches, names, snapping",
"case analysis, real inequalities"
],
"C79": [
"surge-param switches, names, snapping",
"case analysis, real inequalities"
],
"C80": [
"surge-param switches, names, snapping",
"case analysis, real inequalities"
],
"C81": [
"surge-param switches, names, snapping",
"case analysis, real inequalities"
],
"C82": [
"keyboard mapping reader and use",
"induction over the text; algebra"
],
"C83": [
"pitch table look-up",
"real algebra on the table, exact behaviour outside it"
],
"C84": [
"analogue-mode envelope",
"closed forms over R, contraction"
],
"C85": [
"surge-tables look-ups",
"interpolation algebra, modular indices"
],
"C86": [
"LFO phase and waveforms",
"termination measure for the wrap, trigonometric bounds"
],
"C87": [
"LFO step mode",
"index invariants over histories"
],
"C88": [
"LFO attack",
"case analysis"
],
"C89": [
"dual delay block equation",
"refinement to a difference equation"
],
"C90": [
"sinc tables",
"exact real integrals of the window; table identities"
],
"C91": [
"wavetable levels, padding",
"index arithmetic"
],
"C92": [
"wavetable length",
"arithmetic on trailing zeros"
],
"C93": [
"windows",
"trigonometric identities"
],
"C94": [
"surge-param switches, names, snapping",
"case analysis, real inequalities"
],
"C95": [
"synth controllers, bend, routing, latch",
"case analysis over well-formed synth states"
],
"C96": [
"synth controllers, bend, routing, latch",
"case analysis over well-formed synth states"
],
"C97": [
"synth controllers, bend, routing, latch",
"case analysis over well-formed synth states"
],
"C98": [
"synth controllers, bend, routing, latch",
"case analysis over well-formed synth states"
],
"C99": [
"synth controllers, bend, routing, latch",
"case analysis over well-formed synth states"
],
"C131": [
"one lane of the SVF, exact reals",
"real inequalities on the clamped design"
],
"C132": [
"SVF step, coefficients fixed",
"quadratic Lyapunov function, induction over the input"
],
"C133": [
"SVF step",
"fixed point; geometric convergence"
],
"C134": [
"ladder step with gliding coefficients",
"invariant: every stage is a convex combination of clipped values"
],
"C135": [
"S&H step over an arithmetic record",
"phase invariant (reals); clip bound for every binary32"
],
"C136": [
"comb quad, circular buffer as a map, table loads with bounds and alignment",
"representation invariant (history function + mirror cells), refinement to an ideal comb; universal refutation of the shipped code"
],
"C137": [
"four-lane filter with the SSE lane moves, blocks as lists",
"invariant linking registers to signal history, induction over stages, pairs and blocks"
],
"C138": [
"down- and upsampling entry points",
"refinement to the same signal-level low-pass"
],
"C139": [
"signal-level low-pass of C137",
"lossless identity for the all-pass with storage terms"
],
"C140": [
"signal-level low-pass of C137",
"contraction argument along both sample parities"
],
"C141": [
"coefficient tables and constructor",
"case analysis over the six orders"
],
"C142": [
"CondModel.v: lamax table, do_lookahead, do_conditioner_block",
"loop invariant of the tree repair per level, leaf invariant over the stream, root = window maximum"
],
"C143": [
"CondModel.v: get_lookahead",
"gain sequence computed as a function of the level at slot 126"
],
"C144": [
"CondModel.v: delay line, update_gain, cfg",
"stream invariant 1 <= envelope <= slow envelope"
],
"C145": [
"CondModel.v: update_filtered_lamax, process_only_control, amp_targets",
"geometric recurrences solved by induction"
],
"C146": [
"RingModel.v: diode_sim, ring",
"one closed form of the curve; 1-Lipschitz and even fold"
],
"C147": [
"RingModel.v: advance",
"induction on samples with n mod (k+1)"
],
"C148": [
"RingModel.v: ring_sample, shape_out",
"sum over voices in closed form; polynomial factorisation"
],
"C149": [
"RingModel.v: update_unison_settings, gscale",
"induction over the voices written"
],
"C150": [
"RingModel.v: sine_shape",
"quadrant and shape case analysis"
],
"C151": [
"DistModel.v: pass, passes, process_blocks, get_waveshape_idx",
"refinement of the stereo loop to two independent mono loops"
],
"C152": [
"DistModel.v: process_halfrate, dist_core",
"dataflow through the overwritten buffers, lengths of the decimators' outputs"
],
"C153": [
"ReverbModel.v: delay_idx, do_pre_tap(s), get_fb, do_post_tap(s), rv_sample",
"invariant of both ring buffers over the history (last 32768 values), then equation by equation"
],
"C154": [
"ReverbModel.v: rv_sample",
"weighted-energy Lyapunov function; the feedback matrix is orthogonal; convexity of the damping; rate by Bernoulli"
],
"C155": [
"ReverbModel.v: get_fb with checked usize subtraction",
"case analysis; position after n samples"
],
"C156": [
"ReverbModel.v: load_preset, update_rtime, rv_init, pans",
"table ranges by computation, floor and power inequalities"
],
"C157": [
"ReverbModel.v: fb_gain",
"per-line energy weights 1/g^2 with rate 1000^(-2e)"
],
"C158": [
"ReverbModel.v: fb_gain, scaled_time",
"matrix squares to the identity"
],
"C159": [
"ReverbModel.v: rv_control, maybe_update_preset, next_b",
"invariant and countdown to the counter's zero"
],
"C160": [
"ReverbModel.v: do_pre_tap",
"induction on samples"
],
"C161": [
"ReverbModel.v: get_fb, predelay_time",
"modular arithmetic of the index"
],
"C162": [
"FlangerModel.v: id_value, id_push",
"ring invariant over the push history; land with the mask as mod 8192"
],
"C163": [
"FlangerModel.v: soft, chan_sample, fl_process",
"range of the cubic on the clipped value; induction over the samples"
],
"C164": [
"FlangerModel.v: fl_process",
"state invariant through ramps, LFOs, weights, delay reads and feedback"
],
"C165": [
"FlangerModel.v: fl_process, fl_new",
"C164 iterated over blocks from the initial state"
],
"C166": [
"FlangerModel.v: lfo_wave, init_comb",
"case analysis; interpolation is convex"
],
"C167": [
"FlangerModel.v: fill_weights, mode_of",
"case analysis on the integer part of the phase"
],
"C168": [
"ShipModel.v: ship_table (generated from the 29 parameter tables), ParamModel.v",
"C36 applied to every row; the row conditions by kernel computation; induction over the history"
],
"C169": [
"ShipModel.v: ship_table; ParamModel.v: set_value_f01 in binary32",
"orbit of one set computed per row, induction over the history"
],
"C170": [
"ShipModel.v: ship_table; ParamModel.v over the reals",
"C37 applied to every row; kind and tempo-sync preservation by induction"
],
"C171": [
"ShipModel.v: read_table (generated from all pval reads)",
"kind preservation over every history; read against default kind by computation"
],
"C172": [
"AllpassModel.v: pd_process, av_run",
"closed form of a step, induction over the run, projection of the effect onto its pre-delay"
],
"C173": [
"AllpassModel.v: ap_process",
"energy identity per step, refinement to a history list"
],
"C174": [
"AllpassModel.v: calc_size, ms_2_samples",
"interval bounds on the truncated products"
],
"C175": [
"AllpassModel.v: ad_process, calc_size",
"refinement of the ring buffer to a history list"
],
"C176": [
"AllpassModel.v: do_blocks",
"storage function: (1-c^2) section energy, h/(1-h) and 1/l for the dampers, delay energy; induction over time"
],
"C177": [
"AllpassModel.v: av_run",
"relation \"third state is the combination of the first two\" preserved by every function"
],
"C178": [
"AllpassModel.v: av_control, av_samples",
"induction over the samples, smoother invariant over the history"
],
"C179": [
"AllpassModel.v: decay_factor, size_table",
"Rpower algebra"
],
"C180": [
"EngineModel.v: maybe_add_send",
"memory reasoning with disjoint footprints, parametric in the arithmetic"
],
"C181": [
"FlangerModel.v: lfo_wave, init_comb, adjust_longphase",
"case analysis; Lipschitz bound of sine plus interpolation"
],
"C182": [
"FlangerModel.v: fl_process",
"induction over the block against an independent per-sample relation"
],
"C183": [
"MathModel.v: fastsin, fastcos, fastexp, fasttanh, fasttan",
"Taylor remainders, derivative sign and monotonicity (Coquelicot)"
],
"C184": [
"RingModel.v: sine_shape, carrier, ring_sample",
"quadrant case analysis, induction over voices"
],
"C185": [
"PhaserModel.v: ph_update, ph_process, ph_only_control, ph_run; TuneModel.v n2p",
"invariant over histories; exact phase by iteration; non-integer note argument for the panic"
],
"C186": [
"PhaserModel.v: chain, ph_channel, ph_samples",
"exact quadratic storage function per section, induction over samples"
],
"C187": [
"PhaserModel.v: ph_process, ph_run",
"BIBO of each section (BiquadProofs), induction over the chain and over histories"
],
"C188": [
"PhaserModel.v: ph_process, ph_run",
"relational invariants over histories"
],
"C189": [
"VoiceModel.v: get_pitch, update_portamento, legato; LfoModel rate tables",
"induction over rate histories"
],
"C190": [
"VoiceModel.v: init_portasrc, voice_new",
"case analysis; composed with C189 for the unwanted glide"
],
"C191": [
"VoiceModel.v: note_shift, shift_up, shift_down; TuneModel.v lookup",
"search loops by induction, interpolation inverted exactly"
],
"C192": [
"VoiceModel.v: get_pitchbend, octave_size, calc_pitch, keytrack_running, keytrack_toggled, osc_pitch, cutoff_pair",
"algebra over all reals"
],
"C193": [
"VoiceModel.v: mix_block, process_osc, process_ring, process_noise, process_carrier, calc_levels, noise_block; RampProps gain8",
"inversion of the block loop, sample by sample, oscillators abstract"
],
"C194": [
"VoiceModel.v: store_ss, store_block, store_voices",
"closed form of the store loop by induction"
],
"C195": [
"VoiceModel.v: life_block, life_run, shipped_*",
"induction over histories"
],
"C196": [
"VoiceModel.v: gate0-2, process_carrier, spawn_osc, toggle_osc1, toggle_oscs",
"needed oscillators as an inductive relation, compared with the gates"
],
"C197": [
"VoiceModel.v: toggle_filter, fu_set; UnitModel cm_reset",
"case analysis over both units"
],
"C198": [
"VoiceModel.v: load_units, sync_units, setl/getl",
"lane-wise read-over-write, induction over the voices"
],
"C199": [
"OscModel.v: sine_block, sine_sample, sine_legacy_sample, pitch2omega; RingModel sine_shape",
"two-level invariant over blocks and samples; interval arithmetic for 440 Hz"
],
"C200": [
"OscModel.v: sine_block; LagModel.v lag_new, lag_process",
"closed recursion for the sound proved by invariant"
],
"C201": [
"OscModel.v: fm_block, fm_sample",
"closed form by invariant"
],
"C202": [
"OscModel.v: fm2_init, fm2_block, fm2_sample",
"closed form by invariant; mean value theorem for the start"
],
"C203": [
"OscModel.v: audioin_block, audio_in0, audio_in1",
"algebra on the flat array"
],
"C204": [
"OscModel.v: read_master, shipped_master",
"inversion of a block"
],
"C205": [
"ChorusModel.v: ch_pan, ch_init, ch_update, ch_times; LagModel.v",
"invariants over block histories"
],
"C206": [
"ChorusModel.v: ch_process, ch_run; DelayModel.v dd_read, dd_write",
"ring-buffer refinement invariant carried over blocks"
],
"C207": [
"ChorusModel.v: ch_feed, ch_widen, ch_fade; RampProps gain8",
"invariant: ramps settled at their targets"
],
"C208": [
"RotaryModel.v: ro_set_lfos, ro_geom, ro_targets; UnitModel.v quadrosc",
"angle invariant over block histories; Cauchy-Schwarz for the geometry"
],
"C209": [
"RotaryModel.v: ro_process, ro_sample, ro_read; DelayModel.v dd_dtime",
"ring-buffer invariant per sample, lifted to blocks and histories"
],
"C210": [
"RotaryModel.v: ro_post, ro_set_lfos, ro_control",
"angle invariant"
],
"C211": [
"RotaryModel.v: ro_sinc, ro_read",
"exact index computed for every such delay"
],
"C212": [
"RotaryModel.v: ro_init, ro_suspend, ro_process",
"invariant: a filter with zero coefficients stays silent"
],
"C213": [
"FshiftModel.v: fs_new, fs_update, fs_pre, fs_post, fs_process, fs_run; HalfModel.v",
"invariant relating state to signals (FshiftProofs*.v); quarter-rate modulation turns the half-band filter into the two branches"
],
"C214": [
"FshiftModel.v as above",
"invariant on oscillators, lag and cells"
],
"C215": [
"FshiftModel.v: fs_target, fs_dtime, fs_sinc, fs_read; LagModel.v",
"closed form; limit; row computed"
],
"C216": [
"FshiftModel.v: fs_omega_r, fs_update",
"equal updates"
],
"C217": [
"FshiftModel.v: fs_lock, fs_update; UnitModel.v: qo_*",
"one-step contraction of the angle, induction"
],
"C218": [
"FshiftModel.v: fs_suspend, fs_init; HalfModel.v",
"invariant: coefficients kept, empty line and filters stay empty"
],
"C219": [
"EqModel.v: eq_new, eq_init, eq_process, eq_run; BiquadModel.v; LagModel.v",
"invariant: each band has fixed coefficients and the memory of the specified section"
],
"C220": [
"EqModel.v: eq_init, eq_maybe_update, eq_bands, eq_process",
"same invariant; first sample computed"
],
"C221": [
"EqModel.v: eq_maybe_update, eq_process",
"simulation of the two runs by the block counter"
],
"C222": [
"EqModel.v: eq_suspend, eq_init, eq_new",
"invariant on the gain smoother's constants"
],
"C223": [
"VocModel.v: svf_step, band stages",
"the tone is substituted into the recurrence; trigonometric identities"
],
"C224": [
"VocModel.v: voc_update, voc_init, voc_mismatch",
"induction over the bands placed; panics computed"
],
"C225": [
"VocModel.v: voc_update, vb coefficient setup",
"bounds on the tuned frequency and on 2 sin"
],
"C226": [
"VocModel.v: voc_process, voc_run",
"quadratic Lyapunov function for each stage (VocProofs.v), invariant over blocks"
],
"C227": [
"VocModel.v: voc_process, voc_run",
"simulation of three runs"
],
"C228": [
"VocModel.v: voc_process, voc_update",
"simulation by the block counter"
],
"C229": [
"VocModel.v: voc_process",
"invariant: envelopes stay zero"
],
"C230": [
"VocModel.v: voc_suspend, voc_init",
"suspend = re-tune, retune lemma"
],
"C231": [
"QfModel.v: do_serial1..do_wide, do_sample, process_quad; specification in QfProps2.v: wiring",
"invariant: the chain after k samples is the network's state after k samples; the feedback lines are read off the run"
],
"C232": [
"MathModel.v: amp_to_linear, bend, big_mul_r16; BlockModel.v: boundfreq",
"direct"
],
"C233": [
"SsoModel.v: sso_lags_start, sso_lags_block, sso_pinv, sso_hpf",
"invariant over the blocks"
],
"C234": [
"SsoModel.v: sso_convolute, sso_voice_block, sso_start; specification in SsoProofs.v: wave, sso_run",
"induction over impulses and blocks; invariant on the level per step"
],
"C235": [
"SsoModel.v: sso_convolute, sso_loop; closed form Pos, heightC",
"induction over impulses and blocks"
],
"C236": [
"SsoModel.v: sso_get_t, sso_pinv; TuneModel.v tuner",
"from C235 and the tuner's tables"
],
"C237": [
"SsoModel.v: sso_get_g, sso_convolute",
"four steps in closed form, trapezoid areas"
],
"C238": [
"SsoModel.v: sso_loop, sso_get_t, sso_start",
"a potential that grows by a fixed amount per round; invariant for the endless case"
],
"C239": [
"SsoModel.v: sso_sync_step, sso_loop",
"induction over the rounds"
],
"C240": [
"SsoModel.v: sso_convolve, ob_turn, ob_wrap, sso_ipos",
"invariant relating the ring buffer to a time line, induction over taps, impulses, blocks"
],
"C241": [
"SsoModel.v: sso_block",
"from C238 and length invariants"
],
"C242": [
"SsoModel.v: sso_sample",
"induction over samples"
],
"C243": [
"SsoModel.v: sso_coeffs, sso_sample",
"induction over samples"
],
"C244": [
"SnhModel.v: snh_convolute, snh_loop, snh_level; specification in SnhProps.v: snh_run",
"induction over impulses and blocks"
],
"C245": [
"SnhModel.v: snh_convolute, snh_loop; closed form P2",
"induction over impulses and blocks"
],
"C246": [
"SnhModel.v: snh_start, snh_loop",
"two rounds in closed form; invariant; C245"
],
"C247": [
"SnhModel.v: snh_convolute, snh_loop",
"induction over impulses"
],
"C248": [
"SnhModel.v: snh_loop",
"a potential that grows by a fixed amount per round"
],
"C249": [
"SnhModel.v: snh_convolve, snh_row; SsoModel.v buffers",
"buffer invariant of C240"
],
"C250": [
"SnhModel.v: drift_noise, drift_step",
"induction over blocks"
],
"C251": [
"SnhModel.v: snh_init_unison, snh_detune",
"case analysis"
],
"C252": [
"SnhModel.v: snh_sync_step_lag, snh_pw_lag, snh_shape_lag, snh_period",
"invariant over the blocks"
],
"C253": [
"SnhModel.v: snh_sample, snh_samples, snh_hpf, snh_block_entry",
"induction over samples"
],
"C254": [
"NlfModel.v: nl_design, nlff_coeff, nlsf_coeff, nlff_makeup; specification in NlfProps.v: mag2, gain_is, stable2",
"algebra on the unit circle; bounds of the rational sine and cosine"
],
"C255": [
"NlfModel.v: nlff_process, nl_run; specification in NlfProps2.v: stage_eq, chain_eq",
"induction over time with the registers in closed form"
],
"C256": [
"NlfModel.v: nlff_process",
"invariant over stages and time"
],
"C257": [
"NlfModel.v: nlff_process, MathModel fastsin",
"growth invariant"
],
"C258": [
"NlfModel.v: ojd, nlff_process",
"C255"
],
"C259": [
"NlfModel.v: nlff_process",
"induction over stages and time"
],
"C260": [
"NlfModel.v: nlsf_process",
"induction over stages and time"
],
"C261": [
"LadderModel.v: rk_clip, rk_coeff, rk_process",
"derivative of the cubic; interval algebra"
],
"C262": [
"LadderModel.v: rk_process, ladder_run",
"invariant over sub-steps and time"
],
"C263": [
"LadderModel.v: the Runge-Kutta pass; specification in LadderProps.v: the classical step",
"closed form of both steps on the linear decay"
],
"C264": [
"LadderModel.v: hu_coeff, hu_pass, hu_process; specification in LadderProps2.v: ladder_step",
"refinement of each pass"
],
"C265": [
"LadderModel.v: hu_process, ladder_run",
"the saturation is flat beyond 200000 and has slope at most 1/40000; invariant"
],
"C266": [
"LadderModel.v: hu_process",
"oddness of the saturation, induction"
],
"C267": [
"IirModel.v: to_lattice, to_coupled, iir_12_a, iir_12_b, iir_24_b, iir_12_cfc, iir_24_cfc; specification in IirProps.v: biquad_eq",
"simulation of the direct form"
],
"C268": [
"IirModel.v: iir_design, br_design; specification in IirProps2.v: cookbook",
"trigonometric identities, C254_centre"
],
"C269": [
"IirModel.v: iir_design, to_coupled, to_lattice",
"algebra; exact growth of the state norm"
],
"C270": [
"IirModel.v: all processing routines",
"energy of rotations, convexity along the glide"
],
"C271": [
"IirModel.v: map_2pole, map_4pole",
"interval and monotonicity arguments"
],
"C272": [
"IirModel.v: f_bandpass, iir_coeff",
"case analysis"
],
"C273": [
"IirModel.v: iir_dispatch, clip_reg, limit_reg",
"case analysis, induction over time"
],
"C274": [
"IirModel.v: all processing routines",
"odd maps, induction"
],
"C275": [
"ObxdModel.v: ob2_solve, ob_tcfb, ob_diode; specification in ObxdProps.v: damping",
"lower bound of the diode polynomial, field"
],
"C276": [
"ObxdModel.v: ob2_process",
"energy balance, induction over the run"
],
"C277": [
"ObxdModel.v: ob2_process",
"energy balance and the sign of the damping"
],
"C278": [
"ObxdModel.v: ob2_coeff, ob2_mix; specification: mode_out",
"case analysis, induction"
],
"C279": [
"ObxdModel.v: ob4_process; specification in ObxdProps2.v: onepole, chain4",
"elimination of the loop"
],
"C280": [
"ObxdModel.v: ob4_coeff, ob4_mix; specification: stage_out",
"case analysis"
],
"C281": [
"ObxdModel.v: ob4_process",
"invariant, MVT for the arc tangent"
],
"C282": [
"ObxdModel.v: obxd_process_quad",
"definition"
],
"C283": [
"DiodeModel.v: di_freq, di_warp, di_coeffs; specification in DiodeProps.v: ladder_gains",
"field, interval bounds"
],
"C284": [
"DiodeModel.v: di_step; specification: loop_closed, meant",
"stage-wise elimination"
],
"C285": [
"DiodeModel.v: di_step, di_run",
"ring, induction over the run"
],
"C286": [
"DiodeModel.v: di_coeff, di_run",
"invariant cone and a linear measure growing by 1% a sample"
],
"C287": [
"K35Model.v: k35_coeffs, k35_freq, k35_warp",
"real arithmetic; sign of the rational tangent"
],
"C288": [
"K35Model.v: k_do_lpf, k_do_hpf, k35_lp, k35_hp; specification in K35Props.v: onepole",
"elimination of the loop, field"
],
"C289": [
"K35Model.v: k35_lp, k35_hp",
"quadratic Lyapunov function, completed squares, induction over the run"
],
"C290": [
"K35Model.v: k35_lp, k35_hp",
"uniqueness of the loop's solution"
],
"C291": [
"K35Model.v: k_drive, k35_lp, k35_hp",
"bound of the rational tanh (C183), invariant of one register"
],
"C292": [
"K35Model.v: k35_process_quad",
"definition"
],
"C293": [
"WtOscModel.v: wo_count_desc, wo_unison, wo_tab_start",
"computation through ParamModel.param_new"
],
"C294": [
"WtOscModel.v: wo_tab_start, wo_tab_update, wo_newlevel",
"case analysis on the frame pair, induction over the history"
],
"C295": [
"WtOscModel.v: wo_distort, wo_clip_target",
"algebra of the curves"
],
"C296": [
"WtOscModel.v: wo_mip, wo_newlevel",
"case analysis of the thresholds"
],
"C297": [
"WtOscModel.v: wo_loop, wo_convolute",
"induction over the loop"
],
"C298": [
"WtOscModel.v: wo_place, wo_samples, wo_emit",
"invariant left = right over impulses, voices, samples and blocks; buffer lemmas of SsoProps3"
],
"C299": [
"WtOscModel.v: wo_convolute; specification in WtOscProps2.v: advance",
"reversal of the sum against the antisymmetric skew; refinement of one impulse"
],
"C300": [
"WinModel.v: win_subs",
"case analysis"
],
"C301": [
"WinModel.v: win_table, win_window_address",
"archimed and integer order"
],
"C302": [
"WinModel.v: win_mip, MathModel bitscan_reverse",
"bitscan characterisation of C76, divisibility"
],
"C303": [
"WinModel.v: win_step, win_run, win_mask",
"bitwise lemma for the mask, induction over the samples"
],
"C304": [
"WinModel.v: win_ratio",
"truncation error through the field identity"
],
"C305": [
"WinModel.v: win_read_address, win_convert",
"arithmetic; exhaustive computation over the block with abstract samples"
]
}