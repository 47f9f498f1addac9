{
"C08": "The property is false of the code: a mid-frame flush leaves the stream position inside the header update, so later samples overwrite bytes (C08_..._refuted, for all inputs of that shape). The part that holds: everything written before the flush is in the file and UnfinishedSample is returned.",
"C14": "False in general: a data chunk before any fmt chunk panics (refuted, for all such files). Proved: no panic for every byte string whose first chunk is fmt and that contains no Surge metadata tags; parsing terminates.",
"C17": "The error is returned (partial), but Drop/new write the header into the stream first (refuted); depth 0 panics (refuted).",
"C18": "Holds when no two neighbouring cues differ by exactly -1 (the code's sentinel); with such a difference irregular cues are accepted (refuted).",
"C58": "fact chunks of standard size are skipped; a uhWT chunk's payload is parsed as chunks (refuted).",
"C59": "Even-length chunks are fine; for odd-length chunks the pad byte is not skipped (refuted).",
"C19": "All poly-mode histories; the pedal of channel 0 is treated as covering all channels even with MPE off, which the specification states explicitly.",
"C20": "Re-striking a held key is followed by a panic when the pedal is lifted (refuted, for all such states).",
"C25": "With at most one voice it works; with two or more it panics (refuted for all such scenes), and on the single-scene patch that SurgePatch::new builds (surge-scene/src/patch/init.rs:9) the synth command always panics.",
"C26": "Nothing is freed below the bound and one softkilled voice is freed correctly; with two softkilled voices the wrong ones are freed or it panics (refuted for all lists of that shape).",
"C27": "Among released voices with positive release age; see the theorem for the boundary case.",
"C28": "Single-trigger modes without MPE do fall back; plain mono modes kill the voice and start none, MPE single-trigger never falls back (refuted).",
"C60": "default() recurses through default_default! without a base case: refuted for every stack depth.",
"C61": "create_voice's runtime construction is todo!(), so poly and mono notes always panic (refuted); the portamento path works. Scene.voices is a public Vec that no API call pushes to.",
"C62": "Refuted: the shared hold buffer is emptied by the first scene's purge.",
"C63": "RPN/NRPN codes are truncated to u8, so they collide with CCs (refuted); plain CC learning is correct.",
"C64": "Freed indices are not adjusted for earlier removals (refuted); right for one finished voice. The block path itself starts with code that is todo!().",
"C33": "Panics whenever shuffle is not positive - the default (refuted); with loop points outside the pattern the second advance panics (refuted). With positive shuffle (2^-100..2^20), valid loop points and a 16-bit mask it is total and stays in the pattern, for every draw, in binary32 arithmetic.",
"C31": "f32 Display/FromStr are universally quantified with exactly the round-trip facts used.",
"C66": "Refuted: a masked step is not skipped; partial: jumps land on unmasked steps only.",
"C67": "Refuted: an empty mask ignores the loop, and the loop can get stuck on its first step; partial: with a full mask the position stays in the loop.",
"C68": "The trigger law holds; unvalidated probabilities outside [0,1] panic (refuted).",
"C39": "Default-constructed lags converge (partial); Lag::new with another rate misses the target by the factor 250*rate (refuted).",
"C41": "Within each 8 samples the gains are the ramp; after 8 samples the ramp restarts because the macro passes the registers by value (refuted for all longer blocks, exact and binary32).",
"C52": "Exact over the reals, and in binary32 on a common grid; not lossless in binary32 in general, and lengths not a multiple of 4 quads overrun (refuted).",
"C53": "hardclip8_sd clips at -7 (refuted), softclip2_f64 folds back (refuted), odd block lengths overrun (refuted). All other clippers hold, in binary32 for every input incl. NaN.",
"C70": "Lengths that are not a multiple of the unroll factor overrun the block (refuted).",
"C71": "get_absmax uses a numeric cast as a bit mask, so normal-level blocks measure as silence (refuted); get_absmax_2 and get_squaremax are right.",
"C72": "lerp rejects x = 1 by panicking (refuted).",
"C73": "Bounds hold; the drift state is never updated (refuted).",
"C76": "bitscan_reverse counts trailing zeros (refuted).",
"C29": "Set_parameter01 panics for every parameter (it reads it as Int and as Bool), and the solo handler clears every scene solo (refuted, for all states). Proved: un-soloing changes nothing else; the voice plays exactly the soloed channels, or the unmuted ones when none is soloed.",
"C36": "Proved for every history of normalised and typed sets, NaN and infinities included, for float and integer descriptors. Refuted: the raw setter is unbounded; NaN with tempo sync on reaches to_int_unchecked (undefined behaviour); boolean parameters panic.",
"C37": "Float parameters: exact over the reals, in [0,1] and monotone in binary32. Refuted for integer parameters (the input is ignored), boolean parameters (panic) and Nil.",
"C38": "Linear and between the ends over the reals, ends exact in binary32; in binary32 the result can leave the interval by one rounding step (refuted).",
"C78": "set_extend_range and set_snap are stored but never read (refuted); absolute, tempo sync and clear_flags work.",
"C80": "Proved for all note numbers >= 0; negative ones that are not multiples of 12 panic (refuted, exactly those).",
"C81": "Below a whole note every label says dotted (refuted, for every value); from one to two whole notes the label is right.",
"C34": "False of the code: no text loads to a scale with a tone (refuted, for every text, with the exact outcome per text).",
"C35": "Proved for every scale and every linear mapping (all keys, both directions), and for keyed mappings key by key. Refuted: octave_degrees is ignored, unmapped keys sound.",
"C82": "The reader never yields a usable mapping and tune_a69_to has no effect or panics (refuted, for every text); remapping to the standard keyboard is proved.",
"C83": "Proved inside the table; outside it wraps, sawtooths or panics (refuted, exact behaviour); a new tuner answers 0; the inverse at the tuning centre is 1/pitch^2.",
"C45": "As shipped every digital block, release and quick release panics because get_output is todo!() (refuted, for all states). With get_output doing what it documents: range, order, exact attack, decay and release curves and termination are proved over the reals; the quadratic decay swings for ever near zero (refuted).",
"C84": "Release panics as shipped (see C45). With get_output as documented: exact charge, discharge and release curves over the reals, termination, range [0,1.5]; the output exceeds 1 on every held note (refuted).",
"C44": "Proved: range in [0,1] for every history without release (rates >= 0, sustain 0 or 1), exact level and duration of each stage, stuck afterwards, trigger restarts. Refuted: the release stage adds the start level instead of scaling, so it jumps up (above 1) and then drops to 0.",
"C85": "Proved: exact/linear/monotone/positive inside the tables, waveshaper bounded for every argument, sine warp periodic and bounded for x >= -2. Refuted: outside the tables the index wraps (-385 dB is +127 dB), huge arguments panic, lookups before init are 0.",
"C86": "Proved over exact reals: phase wrap terminates, exact frequency, waveform formula, deform, bounds. Refuted: output never readable (get_output is 0), runaway phase above one turn per block, Deform has no type that suits all shapes, fresh parameters panic, noise memoryless.",
"C87": "Proved: step order, looping, history, retrigger bits, glide bounds. Refuted: shuffle makes every other step 100x faster; steps >= 32 panic.",
"C88": "Proved for key trigger. Refuted: random mode always uses step 0 (panics for loop end 0), free-running mode does not set the phase (panics when loop end < loop start).",
"C46": "Proved over exact reals for every history: exact 12-tap window of the samples written dt+1 back, delay accurate to 1/256 sample for 32..2^18-13, all accesses in bounds for every run. The filters are any function on the two 32-sample blocks; the delay-time smoother's output is any function of the sample index.",
"C89": "Proved: the exact block equation (what is stored, what comes out), dry and wet limits, modulation bounds. Refuted: the crossfeed control has no effect, the feedback gain is used for both paths; the mix/feedback/width ramps restart every 8 samples (see C41).",
"C48": "Proved for every sample list and size: frame-by-frame layout; a wrong count or fewer than three tables panics.",
"C49": "Proved: level count, all accesses in bounds. Refuted: a coarser level is a single tap times a single parent sample (the accumulator is overwritten), so 16-bit tables are decimated unfiltered and shifted by 32 samples.",
"C50": "Proved: layout of loaded files for declared frame lengths and plain samples, error cases. Refuted: cue-only files never load; panics on wrong frame counts, plain lengths not a multiple of the window, stereo, srgo without srge, unreadable files, other extensions, .wt files; truncated files load header bytes as samples.",
"C90": "Proved over exact reals, including the combination with the delay line (C46). Refuted: the 16-bit table adds 16384 instead of multiplying, every entry is 16383..16385.",
"C91": "Proved for every size and padding 0..11.",
"C92": "Proved for powers of two. Refuted for every other length: the count of trailing zeros is reported.",
"C93": "Proved over exact reals for n >= 2. Refuted: the symmetric Blackman-Harris window is asymmetric (exact difference given).",
"C94": "Snapping into the same octave, fixed points and monotonicity proved over exact reals for the bound_value path; nearest is refuted (the thresholds 1.167 and 1.41 are not the midpoints and a value just below the next octave snaps down to dotted).",
"C95": "proved for every well-formed synth state, value and channel (rational arithmetic)",
"C96": "proved",
"C97": "partial: which scenes are routed to is proved; the flag the renderer computes for post-processing a scene is inverted (refuted: it is set exactly when the scene has no voices)",
"C98": "partial: freeing two or more voices panics (C25), so release is proved for scenes with at most one voice; in the synth's control step an armed scene B follows scene A's playing flag (refuted); the latched note itself always panics (refuted)",
"C99": "proved for the stored values and the single-trigger consequence",
"C100": "partial: silence while halted is proved; without an input bus the block ends in an alignment error for every buffer address (refuted), with one the input channels overlap, so no unhalted block completes",
"C101": "partial: proved for the output buffer; refuted for the input buffer, whose right channel starts two samples after the left",
"C102": "partial: the block's own 256 cells are cleared, but 192 cells behind it are overwritten too (refuted); a block not 16-byte aligned is an error",
"C103": "partial: proved for bypass settings AllFX and SceneFXOnly; NoSendFX drops the inserts and AllFXOff keeps them (refuted)",
"C104": "proved; effects are arbitrary functions, bounds in binary32, muted silence in exact arithmetic",
"C105": "proved over exact reals",
"C106": "proved",
"C107": "All headers with a minimal file around them: inconsistent -> FormatError, unknown kind -> Unsupported, PCM/float/extensible accepted exactly as described. Refuted part: the block alignment is divided by the channel count and the remainder dropped, so a ragged alignment is accepted. 32-bit PCM with a WAVEFORMATEX extension is refused (part of the exact description).",
"C108": "clm, srge, srgo, smpl proved for all field values. Refuted part: a clm chunk declaring fewer than 7 bytes makes opening panic (u32 underflow).",
"C109": "Over exact reals. Fixed coefficients (settled) are BIBO stable; during a glide only the frozen coefficient sets are shown to be in the stability triangle. Refuted for the unguarded designs above Nyquist (coeff_bp, bp2a, pka, morph; unused by other crates).",
"C110": "Over exact reals; all processing variants.",
"C111": "Over exact reals; peak_eq: DC gain and 0 dB only.",
"C112": "Over exact reals, settled coefficients.",
"C113": "Over exact reals; omega doubling is conditional on the tuner's octave law.",
"C114": "Refuted: the morph argument is unused (the code's own comment says so).",
"C115": "Update proved for every f64 tempo in binary floating point; the handle finding is universal over call histories.",
"C116": "Exact reals (no rounding drift); the division by zero of set_rate at the origin is shown as Panic (NaN in the code).",
"C117": "Exact reals, one lane (the code is lane-wise).",
"C118": "Exact reals, one lane.",
"C119": "Exact reals; the quad filter's 64 additions of dcoeff per block are part of the modelled block.",
"C120": "Range in binary32 for every reciprocal behaviour; curve over exact reals; the huge-negative case is a finding in binary32.",
"C121": "Exact reals with the conversion's round-to-even and 32-bit saturation.",
"C122": "Universal refutation: the table look-up ignores its offset; SSE packing modelled for all four lanes.",
"C123": "Filters and shaper are arbitrary lane-wise functions of unit state and sample; arithmetic over exact reals; the input buffers have 64 samples.",
"C124": "Exact reals; an AND with an all-zero mask is modelled as 0.",
"C125": "Exact reals. Refuted part: dout_l is added twice in qfc_write_outputs_dual.",
"C126": "Arbitrary vector type and operations; in stereo/wide the debug-only reasonableness assertions are excluded.",
"C127": "Exact reals; no filter, no shaper, zero feedback.",
"C128": "Exact reals; saturating = bounded-output units.",
"C129": "Exact reals; refuted part is the consequence of the C125 finding.",
"C130": "Exact reals; refuted part: calc_pan's second-bus amplitudes do not use the channel pan.",
"C131": "Exact reals.",
"C132": "Exact reals, coefficients fixed during the run; stability shown for resonance at most 0.86 (q > 0).",
"C133": "Exact reals; convergence at zero resonance.",
"C134": "Exact reals.",
"C135": "Rate in exact reals, bound in binary32.",
"C136": "Refuted for the shipped code (simd_extract is todo!(), row scaled after extraction); the partial theorems describe the filter with these two repaired, exact reals.",
"C137": "Exact reals; buffers are multiples of four samples (the code reads past other lengths).",
"C138": "Exact reals; block lengths multiples of eight (down) and four (up).",
"C139": "Exact reals.",
"C140": "Exact reals; the refuted part is the level after upsampling.",
"C141": "Coefficients are the decimal literals (the code rounds them to f32).",
"C142": "from init; exact reals",
"C143": "refuted: get_lookahead reads leaf LOOKAHEAD-2 = 126 instead of the root 254",
"C144": "reciprocal approximation as hypothesis; refuted without init (envelope 0)",
"C145": "exact reciprocal in the sustained-peak theorem",
"C146": "exact reals",
"C147": "refuted: phase -= phase",
"C148": "refuted parts stated universally; low/high cut after the core not included",
"C149": "bounds-checked arrays of 16",
"C150": "input point anywhere in the unit disc; fastsin/fastcos error not included",
"C151": "waveshaper an arbitrary function; ramps as factor lists",
"C152": "refuted; writes behind the 32-sample arrays are collected, their effect on other memory is not modelled",
"C153": "exact reals; biquads, width and mix after the network not included; wrapping arithmetic",
"C154": "exact reals; wrapping arithmetic",
"C155": "refuted (debug builds)",
"C156": "float rounding of the products ignored",
"C157": "damping 0",
"C158": "refuted",
"C159": "ringout length not modelled",
"C161": "refuted",
"C162": "refuted for delays above 8191; exact reals",
"C163": "exact reals",
"C164": "sine modes assume the phase misses the table edge (see C166)",
"C165": "modes 1 and 5 excluded because of C166",
"C166": "refuted at the isolated phases where the sum is 1 or 2",
"C168": "refuted for ten parameters; raw set_value (patch/init.rs:18 and the mismatch handlers) is not among the operations",
"C169": "refuted for all fifteen",
"C170": "refuted where the control type is Nil",
"C171": "refuted for 66 reads; reads through a generic parameter argument (scene set.rs:11,32-33, modsource.rs:7,34) are in C29",
"C172": "refuted; the step away from the wrap is proved exact",
"C173": "exact reals",
"C174": "refuted above 135414 Hz",
"C175": "refuted for long delays",
"C176": "refuted for coefficient 0; modulation 0 and zero input only; loop only (the pre-delay panics anyway)",
"C177": "exact reals",
"C178": "refuted for low damping",
"C179": "delays only: the sections' own delay is not counted, as in the code",
"C180": "layout condition is the one of the engine's buffers (Example)",
"C181": "exact reals",
"C182": "exact reals; the invariant is preserved and holds initially",
"C183": "exact reals: rounding not included",
"C184": "exact reals",
"C185": "exact reals; refuted for rates above 1/8 cycle per block and for control-only calls",
"C186": "exact reals, settled coefficients",
"C187": "exact reals, settled coefficients (LFO depth zero for the whole-history form)",
"C188": "exact reals; the code rounds the right channel's Q to f32",
"C189": "exact reals; refuted at the end of a glide and as shipped",
"C190": "refuted when exactly one of the two conditions holds",
"C191": "exact reals, strictly increasing tables",
"C192": "exact reals; refuted parts stated universally",
"C193": "exact reals; oscillators' own output is arbitrary",
"C194": "memory modelled by f32 address, also past the end of the array",
"C195": "ages are i32",
"C196": "oscillators abstract; the shipped order of toggling",
"C197": "delay lines are not cleared by the code and not part of the unit",
"C198": "make_coeffs is UnitModel's; gains and mixes are QfModel.set_quad",
"C199": "exact reals; master_osc assumed readable; refuted for legacy waveforms 2, 3, 6, 8",
"C200": "exact reals; refuted",
"C201": "exact reals; refuted in time",
"C202": "exact reals; refuted in time",
"C203": "the 64 x 2 array as memory; refuted",
"C204": "null read modelled as Panic; refuted",
"C205": "exact reals; refuted: voices 0 and 3 coincide, tempo sync of Rate ignored",
"C206": "exact reals; sinc table arbitrary; the filters' coefficients arbitrary",
"C207": "exact reals; block operations sample by sample as proved in C41/C42/C70",
"C208": "exact reals; refuted for tempo sync",
"C209": "exact reals; the sinc table is arbitrary (257*12 entries)",
"C210": "exact reals; refuted",
"C211": "refuted; f32 rounding of the travel time is not modelled",
"C212": "refuted; exact reals",
"C213": "exact reals; RMult must not change between 1 and other values within the run",
"C214": "exact reals; debug profile for the overflow",
"C215": "refuted",
"C216": "refuted",
"C217": "refuted only at exactly opposite phase",
"C218": "exact reals",
"C219": "exact reals; decibel table with dbl 0 = 1",
"C220": "bands given by the design formulas of BiquadModel (their response: C109-C114); refuted part: no fade-in",
"C221": "refuted part: ReturnLevel",
"C222": "exact reals",
"C223": "exact reals",
"C224": "refuted part: band counts 24 and above, old patches",
"C225": "exact reals",
"C226": "square root abstract, bounded on [0,6]; same tuning in every block",
"C227": "exact reals",
"C228": "refuted part: two ignored parameters",
"C229": "refuted part: gate levels above the limiter",
"C230": "refuted: nothing is cleared",
"C231": "exact reals; filters arbitrary functions",
"C232": "exact reals, 32-bit integers",
"C233": "exact reals; smoothers from LagModel.v",
"C234": "exact reals, 1/t for the approximate reciprocal; no FM path",
"C235": "exact reals, constant settings",
"C236": "relative spread refuted (factor 1024), absolute spread proved",
"C237": "refuted with the exact mean",
"C238": "partial: needs a positive period; refuted for absolute spread",
"C239": "exact reals; master period refuted",
"C240": "exact reals; alignment taken for granted",
"C241": "partial: positive periods",
"C242": "exact reals",
"C243": "exact reals",
"C244": "exact reals, 1/x for the approximate reciprocal; draws are arguments; no FM path",
"C245": "exact reals, constant settings",
"C246": "refuted for the first block of a note, proved for the later ones",
"C247": "exact reals",
"C248": "every list of draws that is long enough",
"C249": "refuted; the lanes behind the copied entry are an arbitrary function",
"C250": "refuted with the exact value",
"C251": "refuted",
"C252": "smoothers from LagModel.v",
"C253": "exact reals",
"C254": "exact reals; sample rates of at least 16.7 Hz",
"C255": "exact reals, one SIMD lane",
"C256": "exact reals",
"C257": "refuted: described for all such coefficients",
"C258": "refuted: described for all coefficients",
"C259": "exact reals",
"C260": "refuted: described for all signals; the panic is characterised",
"C261": "exact reals",
"C262": "exact reals, one SIMD lane",
"C263": "refuted: described for every step size",
"C264": "exact reals; sample rates of at least 16.7 Hz",
"C265": "exact reals",
"C266": "exact reals",
"C267": "exact reals, one SIMD lane; the f32 rounding of the coefficients is not modelled",
"C268": "refuted: described for all frequencies",
"C269": "refuted above a quarter of the rate",
"C270": "exact reals; the reciprocal square root is any function into [0, 1]",
"C271": "exact reals",
"C272": "refuted: described exactly",
"C273": "refuted parts described exactly",
"C274": "exact reals",
"C275": "exact reals, one SIMD lane",
"C276": "fixed coefficients",
"C279": "refuted while gliding: concrete case",
"C280": "refuted for subtype 3, described for all stage outputs",
"C281": "no bound is claimed with resonance",
"C282": "process_quad is todo!()",
"C283": "exact reals",
"C284": "refuted for all tunings and positive resonances; the reciprocal is taken to be exact",
"C285": "any reciprocal",
"C286": "refuted; exact reciprocal",
"C287": "exact reals",
"C288": "lowpass.rs and highpass.rs are not compiled into the crate; saturation 0",
"C289": "saturation 0, fixed coefficients",
"C290": "saturation 0",
"C292": "process_quad is todo!()",
"C294": "f32 casts taken in range, tables not flagged as samples",
"C295": "exact reals",
"C296": "exact reals",
"C297": "finished loops; no FM",
"C299": "settings constant during the cycle; tempt an argument",
"C301": "exact reals",
"C303": "no FM",
"C304": "exact reals, cast in range",
"C305": "sinc products not modelled"
}