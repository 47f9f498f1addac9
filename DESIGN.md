# Formal model of klebs6/surge-rs in Rocq (Coq 8.16.1)

This file is generated by `tools/gen_design.py` from `tools/design_head.md`, `tools/methods.json`,
`properties.jsonl`, `MANIFEST.json` and `tools/assumptions.json`.

## Layout

* `properties.jsonl` - the semantic properties (generated by `tools/gen_properties.py`).
* `rocq/theories/Base.v`, `Util.v`, `F32.v` - outcome monad (`Ok`/`Err`/`Panic`), machine-integer
  helpers, binary32.
* `rocq/theories/<Area>Model.v` - the model; one definition per Rust function, each with a comment
  `(* file:lines *)`. No proofs there.
* `rocq/theories/<Area>Spec.v` - small, model-independent specification vocabulary. In the smaller
  areas the specification (two or three definitions) stands in the Props file right above the theorem.
* `rocq/theories/<Area>Proofs.v` - lemmas.
* `rocq/theories/<Area>Props*.v` - the property theorems, named after the property (`C42_...`), each
  with `Print Assumptions` and, where it has hypotheses, a non-vacuity `Example`.
* `MANIFEST.json` - property -> theorem map; `seeded/LOG.jsonl` - mutation log;
  `tools/` - generators and the mutation driver (`mutate.py`, `genmuts.py`, `mklog.py`).

A theorem whose name ends in `_refuted` shows that the code violates the property: it describes the
wrong behaviour for all states in which it occurs, not only a witness. `_partial` marks a proved part
of a property. A property with such a theorem is `partial` in the manifest; its note says what is
missing or what is wrong.

## Conventions of the model

* **Integers** are `Z` with explicit ranges; `u32`, `usize`, ... arithmetic is *checked* (overflow =
  `Panic`, the debug profile) wherever it can matter; theorems carry range hypotheses that exclude
  overflow, so they also hold for the wrapping release profile. `as` casts truncate or saturate as in Rust.
* **Panics** (`unwrap` on None, index out of bounds, `assert!`, `todo!()`, `unreachable!`, empty
  `gen_range`) are the explicit outcome `Panic`; `Result::Err` is `Err e`. Undefined behaviour through
  raw pointers (accesses outside an allocation) is shown as `Panic` where the buffer has bounds in the
  model, and as a visible write to the neighbouring cells where memory is a total map.
* **State**: `&mut self` methods return the new state; `Rc<RefCell<..>>` handles are the values they
  point to, with sharing modelled where the owners are.
* **Streams**: a `Read+Write+Seek` stream is a byte list with a position (the contract of
  `io::Cursor<Vec<u8>>` and of regular files). Other I/O errors are not modelled.
* **Floats**: samples in the WAV and wavetable code are 32-bit patterns. Where rounding, NaN or
  infinities matter, f32/f64 are Flocq's `binary_float` (`F32.v`, computable, round to nearest even).
  Where the property is about the algorithm, arithmetic is over exact reals (each comment says so).
  Several models are written once over an arithmetic record (`arith`, `numops`, `vops`) and read with
  both. libm functions (`powf`, `log2`, `exp`, ...) are universally quantified functions in binary32
  models and the real functions in real models. `_mm_rcp_ps`/`_mm_rsqrt_ps` are arbitrary functions
  (with a stated error bound only where a theorem needs one).
* **Memory** of the SSE block routines is a total map from f32 cells to values, so what a call touches
  is the set of changed addresses; alignment is `address mod 4 = 0` where a fault is modelled.
* **Randomness**: each draw is an explicit argument ranging over everything the generator may return.
* **Unwritten callees**: where the code calls something that is `todo!()`, the theorem about the code as
  shipped says `Panic`; where a further theorem says what happens once it is written, the callee is an
  argument (for instance `get_output` of the envelope).
* **Plug-in points**: filters and waveshapers in the quad chain and the delay, effects in the audio
  engine, and what a scene renders are arbitrary functions: the theorems hold for every behaviour.
* **Quads**: four-lane SSE code is modelled lane-wise when every operation is lane-wise, and with all
  four lanes where lanes meet (packing, horizontal sums, the quad filter chain).

## Modelled and not modelled

Modelled (crate: what): surge-hound: reader, writer, appending, 16-bit writer, chunk parsing incl.
Surge chunks. surge-midi, surge-mpe: hold pedal, channel state. surge-scene: voice management, poly
modes, solo, set_parameter. surge-synthesizer: controller dispatch, RPN/NRPN, routing, the audio
block, halting, sends, master clip. surge-input/-output: buffers. surge-stepseq. surge-lag,
surge-lipol. surge-math: block operations, clipping, conversions, small helpers. surge-param:
values, bounds, modulation depth, normalised access, names. surge-tuning: Scala readers, retuning,
keyboard mapping, tables. surge-adsr, surge-lfo, surge-tables (incl. sinc, windows).
surgefx-dualdelay. surgefx-allpass (circular buffer), effect ring-out. surge-wavetable.
surge-modulation. unison of surge-oscillator. surge-samplerate. surge-biquad, surge-svf,
surge-quadrosc, surge-timeunit, surge-coeffmaker. surgeshaper-*. surge-qfunit and the voice code that
loads it. surgefilter-svf, -moog, -snh, -comb. surge-halfrate. surgefx-conditioner (limiter), surgefx-ringmod (core), surgefx-distortion (core). surgefx-reverb (network, presets, control). surgefx-flanger. surgefx-allpass ("reverb2", up to the wet signal). surgefx-phaser. surge-voice, surgeosc-audioin, surgefx-chorus, surgefx-rotary, surgefx-freqshift, surgefx-eq3band, surgefx-vocoder with surge-svf, surgeosc-super and surgeosc-snh (without FM), surgeosc-sine, surgeosc-fm, surgeosc-fm2 (portamento, pitch, mixer, block loop, filter hand-over; see C189-C198). All 29 parameter tables and all typed parameter reads (ShipModel.v). Further areas are listed in the property table below., surgefilter-nlfeedback, surgefilter-nlstates, surgefilter-rungekutta, surgefilter-huovilainen, surgefilter-iir (without the wave digital form)

surgefilter-obxd. surgefilter-diode. surgefilter-k35 (coefficients, and the uncompiled processing text). surgeosc-wavetable (tables not flagged as samples, no FM), surgeosc-window (choices, increments, phase, addresses, block conversion; no FM, no sinc products).

Not modelled: GUI and plug-in wrappers, text formatting of parameters, XML patches, the arithmetic of
most surgefx-*, surgefilter-* and surgeosc-* crates (beyond what the table lists), SIMD flags
(denormals, rounding mode), threads (the code is single-threaded through `Rc`), timing, allocation
failure. The correspondence between the Gallina model and the Rust text is by reading only; the code
is never compiled or run here.

## Trusted base

The Coq 8.16.1 kernel (with `vm_compute`), the reading of the Rust text into the model, and the axioms
listed at the end of this file. There are no axioms of our own, no functors, no module types. Flocq and Coquelicot are
used as libraries only; the axioms that appear come from Coq's standard library (classical reals and
functional extensionality).

## Properties: what is modelled and how it is proved

| id | property | model | proof | file | status |
|---|---|---|---|---|---|
| C01 | Sample values survive the byte codec | `Sample::write/read`, LE codecs | arithmetic on byte decompositions, all values | WavProps.v, WavProps2.v | proved |
| C02 | Out-of-range samples are rejected exactly, with no effect | `narrow_to_*`, `write_sample` on stream state | case analysis, range lemmas | WavProps.v | proved |
| C03 | The spec written is the spec read back | `write_headers`, `read_fmt_chunk`, `read_until_data` | symbolic execution of the parser on the symbolic header | WavProps.v | proved |
| C04 | Write then finalize then read returns the same samples | `WavWriter`/`WavReader` state machines | induction over sample list, stream invariant | WavProps.v, WavProps2.v | proved |
| C05 | Finalized files have consistent RIFF sizes | `update_header` | invariant: stream = header ++ encoded samples | WavProps.v | proved |
| C06 | Dropping a writer leaves the same bytes as finalizing it | `Drop`, `finalize` | equality of final streams in every state | WavProps.v | proved |
| C07 | flush is a transparent checkpoint | `flush` | invariant over op lists; erasure of flush | WavProps.v | proved |
| C08 | flush in the middle of a frame loses nothing | `flush` early return | refutation witness + general description | WavProps.v | partial |
| C09 | Appending equals concatenation | `read_append`, `new_append` | C04 machinery; induction over sessions | WavProps.v | proved |
| C10 | File append through a buffered reader starts at the right byte | BufReader model | simulation: buffered reader refines plain stream | WavProps.v | proved |
| C11 | The 16-bit block writer is equivalent to write_sample | `SampleWriter16` | induction, equality with `write_sample` fold | WavProps.v, WavProps2.v | proved |
| C12 | The reader yields exactly len() items, then None | `iter_next`, `iter_size_hint` | induction on remaining samples | WavProps.v, WavProps2.v | proved |
| C13 | Truncated data never fabricates samples | same, truncated stream | induction | WavProps.v | proved |
| C14 | Opening arbitrary bytes never panics | whole header parser | refutation (data before fmt), plus no-panic theorem for files without Surge chunks and with fmt first | WavProps.v | partial |
| C15 | Unknown chunks are invisible | `read_until_data` loop | induction over chunk list | WavProps.v | proved |
| C16 | Seeking is consistent with sequential reading | `seek` | arithmetic on position + C12 | WavProps.v | proved |
| C17 | Unsupported bit depths are refused without side effects | `new`+`Drop` | refutation; partial for return value | TightProps.v, WavProps.v | partial |
| C18 | Cue chunk gives the common spacing of regular cues only | `read_cue_chunk` | induction over cue list; refute sentinel case | WavProps.v, WavProps2.v | partial |
| C19 | A note released under the hold pedal sounds until the pedal is lifted, then is released exactly once | `HoldPedalUnit` | partition/permutation lemmas; refutation for `reset` | SynthProps.v | proved |
| C20 | Re-striking a held key does not crash the synth | `HoldPedalUnit` | partition/permutation lemmas; refutation for `reset` | SynthProps.v | partial |
| C21 | NRPN selection uses both selector bytes | CC dispatch | case analysis; refutation for CC 99 | SynthProps.v | partial |
| C22 | RPN data entry decodes pitch-bend range and MPE configuration only | CC dispatch | case analysis; refutation for CC 99 | SynthProps.v | partial |
| C23 | Channel state is isolated | `MIDIUnitHandle` | get/set laws over histories | SynthProps.v | proved |
| C24 | Notes are routed to the scenes the scene mode prescribes | `calculate_channel_mask` | case analysis | SynthProps.v | partial |
| C25 | All-notes-off silences the instrument | `Vec::remove` loops | induction; refutation for >=2 voices | SynthProps.v, SynthProps2.v | partial |
| C26 | The polyphony limit is enforced | `Vec::remove` loops | induction; refutation for >=2 voices | SynthProps.v | partial |
| C27 | Voice stealing picks the oldest released voice first | `softkill_voice` | loop invariant (argmax) | SynthProps.v | partial |
| C28 | Mono mode falls back to the highest key still held | `release_monophonic` scan | loop invariant | SynthProps.v, SynthProps2.v | partial |
| C29 | Channel solo is exclusive when requested | `handle_boolsolo` | case analysis | ParamProps2.v, ParamProps3.v | partial |
| C30 | Step mute flags behave as a set | step sequencer | bit lemmas, induction, string round trip | StepProps.v, StepProps2.v | proved |
| C31 | Step sequencer state survives save and load | step sequencer | bit lemmas, induction, string round trip | StepProps.v, StepProps2.v | proved |
| C32 | Step access is bounds-checked and local | step sequencer | bit lemmas, induction, string round trip | StepProps.v, StepProps2.v | proved |
| C33 | Advancing the sequencer is total and stays inside the pattern | step sequencer | bit lemmas, induction, string round trip | StepProps.v | partial |
| C34 | A well-formed Scala scale can be loaded | scale parser | general refutation of the parser | TuneProps.v, TuneProps2.v | partial |
| C35 | Retuned pitch tables repeat at the scale's period | `retune_to_scale` | algebra over Q/Z | TuneProps.v | partial |
| C36 | A parameter's value is always within its declared range | `ParamRT` | invariant; refutations for Int/Bool set | ParamProps.v, ParamProps2.v | partial |
| C37 | Setting a parameter from a normalised value takes effect | `ParamRT` | invariant; refutations for Int/Bool set | ParamProps2.v, ParamProps3.v | partial |
| C38 | Morphing between two parameters stays between them | `ParamRT` | invariant; refutations for Int/Bool set | ParamProps2.v | partial |
| C39 | A smoothed (lagged) value converges to its target | lag, lipol, trixpan | closed forms over R/Q, induction on steps | LagProps.v, SmallProps2.v | partial |
| C40 | A block-linear ramp ends exactly on the target | lag, lipol, trixpan | closed forms over R/Q, induction on steps | LagProps.v, SmallProps2.v | proved |
| C41 | The SIMD ramp used for gains is continuous over the whole block | lag, lipol, trixpan | closed forms over R/Q, induction on steps | RampProps.v, TightProps2.v | partial |
| C42 | Triangular panning preserves the channel sum | lag, lipol, trixpan | closed forms over R/Q, induction on steps | RampProps.v | proved |
| C43 | An effect's tail rings out after input stops | `process_ringout` | induction over input history | SmallProps.v, SmallProps2.v | partial |
| C44 | The LFO envelope stays within [0,1] | LFO/ADSR state machines | invariants, termination measure | LfoProps.v, TightProps4.v | partial |
| C45 | The amplitude envelope follows attack, decay, sustain, release and ends idle | LFO/ADSR state machines | invariants, termination measure | AdsrProps.v, SmallProps2.v | partial |
| C46 | The delay line returns the sample written the requested time ago | dual delay buffer | refinement to history function | DelayProps.v | proved |
| C47 | The allpass delay has exact length N and unit energy structure | allpass circular buffer | refinement to recurrence | SmallProps.v, SmallProps2.v | proved |
| C48 | Wavetable samples are stored frame by frame | wavetable | index arithmetic, invariants | TightProps3.v, WtProps.v | proved |
| C49 | Mipmap levels exist and fit | wavetable | index arithmetic, invariants | WtProps.v | partial |
| C50 | Loading a wavetable from a WAV never crashes | wavetable | index arithmetic, invariants | TightProps3.v, WtLoadProps.v | partial |
| C51 | Changing the sample rate updates every derived quantity | sample rate handle | case analysis / refutation | SmallProps.v | partial |
| C52 | Mid/side encoding is lossless | surge-math | algebra, bit lemmas | BlockProps.v | partial |
| C53 | Clippers keep signals in their documented range | surge-math | algebra, bit lemmas | ClipProps.v, TightProps2.v | partial |
| C54 | 16-bit sample conversion and byte swapping are faithful | surge-math | algebra, bit lemmas | ConvProps.v | proved |
| C55 | Unison voices are spread symmetrically and keep total level | unison | algebra over Q | UniProps.v | proved |
| C56 | Smoothed controllers reach what was set and report it | modulation | algebra, finite enumeration | SmallProps2.v, UniProps.v | partial |
| C57 | Modulation source classification is consistent | modulation | algebra, finite enumeration | SmallProps.v, SmallProps2.v | partial |
| C58 | Standard metadata chunks other than Surge's own are skipped whole | `read_next_chunk` on fact/uhWT chunks | symbolic execution over all payloads | WavProps.v | partial |
| C59 | Odd-length chunks padded per RIFF are accepted | chunk skipping | arithmetic on stream positions | WavProps.v | partial |
| C60 | The MIDI channel and key state can be constructed | `default_default!` recursion | induction on stack depth | SynthProps.v | partial |
| C61 | A played note starts a voice | `play_note`, `create_voice` | case analysis over poly modes; invariant on the voice list | SynthProps.v | partial |
| C62 | Lifting the pedal releases held notes in every scene | `purge_holdbuffer` on both scenes | universal description over buffers | SynthProps.v, SynthProps2.v | partial |
| C63 | MIDI learn stores a code that identifies the learned controller | MIDI learn codes | arithmetic on code truncation | SynthProps.v, SynthProps2.v | partial |
| C64 | Voices that finish in a block are freed, and no others | finished-voice removal in the block | induction over the index list | SynthProps.v, SynthProps2.v | partial |
| C65 | Pitch bend goes where MPE says | MIDI channel state | get/set laws over histories | SynthProps.v | proved |
| C66 | Steps masked out of the trigger mask are skipped | step sequencer `advance`, masks, loops, probabilities | case analysis, modular arithmetic, invariants over histories | StepProps.v | partial |
| C67 | The sequencer loops between its loop points | step sequencer `advance`, masks, loops, probabilities | case analysis, modular arithmetic, invariants over histories | StepProps.v | partial |
| C68 | A step triggers with its probability | step sequencer `advance`, masks, loops, probabilities | case analysis, modular arithmetic, invariants over histories | StepProps.v | partial |
| C69 | Mutation and swing keep steps in [0,1] | step sequencer `advance`, masks, loops, probabilities | case analysis, modular arithmetic, invariants over histories | StepProps.v, StepProps2.v | proved |
| C70 | Block arithmetic touches exactly the block | SSE block routines over total memory | loop invariants; refinement to pointwise maps | BlockProps.v | partial |
| C71 | Block level meters report the true maximum | absolute maxima | bit-pattern lemmas in binary32 | ConvProps.v, TightProps2.v | partial |
| C72 | Interpolation hits its end points and stays between them | surge-math scalar helpers | real algebra / binary32 lemmas / bit lemmas | FastProps.v | partial |
| C73 | Noise stays in [-1,1] and oscillator drift is a slow bounded walk | surge-math scalar helpers | real algebra / binary32 lemmas / bit lemmas | FastProps.v | partial |
| C74 | Fast approximations keep the shape of the function | surge-math scalar helpers | real algebra / binary32 lemmas / bit lemmas | FastProps.v | proved |
| C75 | Window functions are symmetric and between 0 and 1 | surge-math scalar helpers | real algebra / binary32 lemmas / bit lemmas | FastProps.v | proved |
| C76 | Integer helpers compute what they say | surge-math scalar helpers | real algebra / binary32 lemmas / bit lemmas | FastProps.v, SmallProps2.v | partial |
| C77 | Wide panning law | surge-math scalar helpers | real algebra / binary32 lemmas / bit lemmas | FastProps.v | proved |
| C78 | Parameter switches take effect | surge-param switches, names, snapping | case analysis, real inequalities | ParamProps2.v, ParamProps3.v | partial |
| C79 | Modulation depth round trip | surge-param switches, names, snapping | case analysis, real inequalities | ParamProps2.v, ParamProps3.v | proved |
| C80 | Note names | surge-param switches, names, snapping | case analysis, real inequalities | ParamProps2.v | partial |
| C81 | Tempo-sync labels | surge-param switches, names, snapping | case analysis, real inequalities | ParamProps2.v | partial |
| C82 | Keyboard mappings load and apply | keyboard mapping reader and use | induction over the text; algebra | TuneProps.v, TuneProps2.v | partial |
| C83 | Pitch lookup is exact on whole notes, linear and increasing in between, and safe outside | pitch table look-up | real algebra on the table, exact behaviour outside it | TightProps.v, TuneProps.v, TuneProps2.v | partial |
| C84 | The analog envelope charges, discharges to sustain, releases to silence and stays in [0,1] | analogue-mode envelope | closed forms over R, contraction | AdsrProps.v, SmallProps2.v | partial |
| C85 | Interpolated tables: exact on the grid, linear between, safe outside | surge-tables look-ups | interpolation algebra, modular indices | TableProps.v | partial |
| C86 | LFO waveforms: right frequency for ever, within the magnitude | LFO phase and waveforms | termination measure for the wrap, trigonometric bounds | LfoProps.v, TightProps.v | partial |
| C87 | LFO step sequencer: loops, shuffles and fires retriggers | LFO step mode | index invariants over histories | LfoProps.v, TightProps.v, TightProps4.v | partial |
| C88 | LFO trigger modes | LFO attack | case analysis | LfoProps.v | partial |
| C89 | The delay mixes input, feedback, crossfeed and output as its controls say | dual delay block equation | refinement to a difference equation | DelayProps.v | partial |
| C90 | Interpolation tables hold the windowed sinc | sinc tables | exact real integrals of the window; table identities | SincProps.v | partial |
| C91 | Flat wavetable storage: no two samples share a slot | wavetable levels, padding | index arithmetic | WtProps.v | proved |
| C92 | Wavetable size exponent | wavetable length | arithmetic on trailing zeros | WtProps.v | partial |
| C93 | Window functions are symmetric and normalised | windows | trigonometric identities | SincProps.v | partial |
| C94 | Tempo-synced values snap to note, triplet or dotted divisions | surge-param switches, names, snapping | case analysis, real inequalities | ParamProps3.v, TightProps.v | partial |
| C95 | Pressure, mod wheel, MPE pan and timbre reach the right place with the right scale | synth controllers, bend, routing, latch | case analysis over well-formed synth states | SynthProps2.v | proved |
| C96 | Program change selects bank and program | synth controllers, bend, routing, latch | case analysis over well-formed synth states | SynthProps2.v | proved |
| C97 | The scenes that play are the scenes notes go to | synth controllers, bend, routing, latch | case analysis over well-formed synth states | EngineProps.v, SynthProps2.v | partial |
| C98 | Latched voices are released once, when their scene stops playing | synth controllers, bend, routing, latch | case analysis over well-formed synth states | EngineProps.v, SynthProps2.v | partial |
| C99 | The MPE unit stores what it is given | synth controllers, bend, routing, latch | case analysis over well-formed synth states | SynthProps2.v | proved |
| C100 | A halted engine outputs silence; a running one completes its block | audio block of the engine over total memory | symbolic execution; invariants; effects universally quantified | EngineProps.v | partial |
| C101 | Left and right channels are independent | audio block of the engine over total memory | symbolic execution; invariants; effects universally quantified | EngineProps.v | partial |
| C102 | Scratch blocks stay inside their buffer | audio block of the engine over total memory | symbolic execution; invariants; effects universally quantified | EngineProps.v | partial |
| C103 | Exactly the effects the user left on run, in order | audio block of the engine over total memory | symbolic execution; invariants; effects universally quantified | EngineProps.v | partial |
| C104 | The output is the sum of the scenes, scaled, clipped | audio block of the engine over total memory | symbolic execution; invariants; effects universally quantified | EngineProps.v | proved |
| C105 | The level meter holds peaks and decays | audio block of the engine over total memory | symbolic execution; invariants; effects universally quantified | EngineProps.v | proved |
| C106 | Every voice is filtered in its own lane | audio block of the engine over total memory | symbolic execution; invariants; effects universally quantified | EngineProps.v | proved |
| C107 | A format header opens exactly when its fields agree | fmt chunk acceptance | symbolic execution over all header fields | WavProps2.v | partial |
| C108 | Wavetable metadata chunks report the frame length they encode | Surge chunks clm/srge/srgo/smpl | symbolic execution over all field values | WavProps2.v | partial |
| C109 | Every biquad design is stable for every usable cutoff and Q | biquad coefficient design | trigonometry: stability triangle; BIBO by diagonalisation over C | BiquadProps.v, TightProps2.v | partial |
| C110 | The biquad computes the second-order difference equation, in every processing variant | biquad processing variants | simulation between variants, superposition | BiquadProps2.v, TightProps2.v | proved |
| C111 | The biquad designs have the gains their names promise | biquad designs at DC, Nyquist, centre | trigonometric identities | BiquadProps3.v, TightProps2.v | proved |
| C112 | The plotted magnitude is the filter's response to a sine | settled biquad frequency response | steady state plus geometric transient | BiquadProps3.v | proved |
| C113 | Setting biquad coefficients: first at once, then gliding | biquad parameters from pitch | exponential identities | BiquadProps3.v | proved |
| C114 | The low-pass/high-pass morph filter morphs | biquad morph | universal refutation | BiquadProps3.v | partial |
| C115 | The time unit reports the host's tempo | time unit in binary64 | rounding-error analysis with Flocq; history induction | UnitProps.v | partial |
| C116 | The quadrature oscillator is at its accumulated phase | quadrature oscillator | rotation algebra, induction over histories | TightProps.v, UnitProps.v | partial |
| C117 | The vocoder band filter is stable | vectorised SVF stability | Lyapunov function / Jury criterion | UnitProps.v | proved |
| C118 | The vocoder band filter passes its centre at unit gain and blocks DC | SVF response | steady-state algebra | UnitProps.v | proved |
| C119 | Filter coefficients approach the requested ones without overshoot | coefficient smoothing | closed form of the recurrence | UnitProps.v | partial |
| C120 | The clip and tanh waveshapers keep the signal inside [-1, 1] | clip/tanh shapers | binary32 case analysis for the range, real analysis for the curve | ShaperProps.v | partial |
| C121 | The digital waveshaper quantises and preserves silence | digi shaper | round-to-even arithmetic | ShaperProps.v, TightProps.v | partial |
| C122 | The asymmetric and sine waveshapers shape their input | asym/sine shapers | universal refutation via the table look-up | ShaperProps.v | partial |
| C123 | Voices that share a filter quad do not interact | quad filter chain, 4 lanes against 1 lane | lane-wise simulation, induction over the block | QfProps.v | proved |
| C124 | An inactive lane is silent and irrelevant | write_outputs masks | induction over the block | QfProps.v | proved |
| C125 | Gain, mix, drive, feedback and pan ramps reach their targets exactly at the end of a block | ramps of the eight configurations | closed form by induction | QfProps.v | partial |
| C126 | Processing a quad never fails on a missing unit | dispatch | case analysis over Option units | QfProps.v | proved |
| C127 | With its units off a voice is passed straight through the configuration's mixer | configurations without units | symbolic execution of a sample, induction | QfProps.v | proved |
| C128 | The feedback path cannot blow up | feedback path | softclip range, interval bounds | QfProps.v | proved |
| C129 | A voice is loaded into its own lane and resumes where it left off | set_quad_filterblock / sync | case analysis on the lane; composition with C125 | QfProps.v | partial |
| C130 | Filter balance and voice pan laws | balance, pan | real algebra | QfProps.v, TightProps2.v | partial |
| C131 | The state variable filter's coefficients are always in the region where it is stable | one lane of the SVF, exact reals | real inequalities on the clamped design | FiltProps.v | proved |
| C132 | The state variable filter is stable | SVF step, coefficients fixed | quadratic Lyapunov function, induction over the input | FiltProps.v, TightProps.v | proved |
| C133 | The state variable filter passes what its name says at DC | SVF step | fixed point; geometric convergence | FiltProps.v | proved |
| C134 | The Moog ladder cannot blow up | ladder step with gliding coefficients | invariant: every stage is a convex combination of clipped values | FiltProps2.v, TightProps.v | proved |
| C135 | The sample & hold filter samples at the requested rate | S&H step over an arithmetic record | phase invariant (reals); clip bound for every binary32 | FiltProps2.v | proved |
| C136 | The comb filter delays by the requested time and stays inside its buffer | comb quad, circular buffer as a map, table loads with bounds and alignment | representation invariant (history function + mirror cells), refinement to an ideal comb; universal refutation of the shipped code | FiltProps3.v, TightProps.v | partial |
| C137 | The half-rate filter is a half-band low-pass, whatever the block size, with independent channels | four-lane filter with the SSE lane moves, blocks as lists | invariant linking registers to signal history, induction over stages, pairs and blocks | HalfProps.v | proved |
| C138 | Changing the sample rate is low-pass filtering plus dropping or inserting samples | down- and upsampling entry points | refinement to the same signal-level low-pass | HalfProps.v, TightProps2.v | proved |
| C139 | The half-rate filter never adds energy | signal-level low-pass of C137 | lossless identity for the all-pass with storage terms | HalfProps2.v | proved |
| C140 | The half-rate filter passes DC, removes Nyquist, and upsampling keeps the level | signal-level low-pass of C137 | contraction argument along both sample parities | HalfProps2.v | partial |
| C141 | Half-rate filters exist for one to six stages and are stable | coefficient tables and constructor | case analysis over the six orders | HalfProps2.v | proved |
| C142 | The conditioner's level table holds the maximum of the last 128 samples | CondModel.v: lamax table, do_lookahead, do_conditioner_block | loop invariant of the tree repair per level, leaf invariant over the stream, root = window maximum | CondProps.v | proved |
| C143 | The limiter reacts to every loud sample within its look-ahead | CondModel.v: get_lookahead | gain sequence computed as a function of the level at slot 126 | CondProps.v | partial |
| C144 | The limiter delays by 128 samples and never amplifies | CondModel.v: delay line, update_gain, cfg | stream invariant 1 <= envelope <= slow envelope | CondProps.v | partial |
| C145 | A sustained peak is brought down at the attack rate, and the gain recovers when idle | CondModel.v: update_filtered_lamax, process_only_control, amp_targets | geometric recurrences solved by induction | CondProps.v | proved |
| C146 | The ring modulator's diode ring is balanced | RingModel.v: diode_sim, ring | one closed form of the curve; 1-Lipschitz and even fold | RingProps.v | proved |
| C147 | The ring modulator's carrier runs at the requested frequency | RingModel.v: advance | induction on samples with n mod (k+1) | RingProps.v | partial |
| C148 | The ring modulator's output stage and mix | RingModel.v: ring_sample, shape_out | sum over voices in closed form; polynomial factorisation | RingProps.v | partial |
| C149 | Ring modulator unison is spread evenly | RingModel.v: update_unison_settings, gscale | induction over the voices written | RingProps.v | proved |
| C150 | The sine oscillator's waveforms stay within full scale | RingModel.v: sine_shape | quadrant and shape case analysis | RingProps.v | proved |
| C151 | The distortion's oversampled loop holds each sample for four passes with independent channels | DistModel.v: pass, passes, process_blocks, get_waveshape_idx | refinement of the stereo loop to two independent mono loops | DistProps.v | proved |
| C152 | The distortion's output is its oversampled signal brought back to the block's rate | DistModel.v: process_halfrate, dist_core | dataflow through the overwritten buffers, lengths of the decimators' outputs | DistProps.v | partial |
| C153 | The reverb is a sixteen-line feedback delay network with the configured delays, gains and pans | ReverbModel.v: delay_idx, do_pre_tap(s), get_fb, do_post_tap(s), rv_sample | invariant of both ring buffers over the history (last 32768 values), then equation by equation | ReverbProps.v | proved |
| C154 | The reverb tail dies out | ReverbModel.v: rv_sample | weighted-energy Lyapunov function; the feedback matrix is orthogonal; convexity of the damping; rate by Bernoulli | ReverbProps.v | proved |
| C155 | Pre-delay works for every setting in checked builds | ReverbModel.v: get_fb with checked usize subtraction | case analysis; position after n samples | ReverbProps.v, TightProps.v | partial |
| C156 | Every reverb preset and room size is realisable | ReverbModel.v: load_preset, update_rtime, rv_init, pans | table ranges by computation, floor and power inequalities | ReverbProps2.v, TightProps.v | proved |
| C157 | The decay time parameter sets the decay rate | ReverbModel.v: fb_gain | per-line energy weights 1/g^2 with rate 1000^(-2e) | ReverbProps2.v | proved |
| C158 | The reverb decays at every room size | ReverbModel.v: fb_gain, scaled_time | matrix squares to the identity | ReverbProps2.v | partial |
| C159 | Shape, room size and decay settings reach the network | ReverbModel.v: rv_control, maybe_update_preset, next_b | invariant and countdown to the counter's zero | ReverbProps2.v, TightProps.v | proved |
| C160 | Full damping stops the reverb output | ReverbModel.v: do_pre_tap | induction on samples | ReverbProps2.v | proved |
| C161 | Long pre-delays are honoured | ReverbModel.v: get_fb, predelay_time | modular arithmetic of the index | ReverbProps2.v | partial |
| C162 | The flanger's delay line returns the interpolated past | FlangerModel.v: id_value, id_push | ring invariant over the push history; land with the mask as mod 8192 | FlangerProps.v | partial |
| C163 | The flanger's output is always within full scale | FlangerModel.v: soft, chan_sample, fl_process | range of the cubic on the clipped value; induction over the samples | FlangerProps.v | proved |
| C164 | A flanger block never panics and keeps the state bounded | FlangerModel.v: fl_process | state invariant through ramps, LFOs, weights, delay reads and feedback | FlangerProps.v | proved |
| C165 | The flanger's feedback never explodes | FlangerModel.v: fl_process, fl_new | C164 iterated over blocks from the initial state | FlangerProps.v | proved |
| C166 | The flanger LFO stays in range and never reads outside its table | FlangerModel.v: lfo_wave, init_comb | case analysis; interpolation is convex | FlangerProps.v | partial |
| C167 | Comb weights select the requested voices and crossfade at constant power | FlangerModel.v: fill_weights, mode_of | case analysis on the integer part of the phase | FlangerProps.v | proved |
| C168 | Every shipped parameter starts and stays inside its declared range | ShipModel.v: ship_table (generated from the 29 parameter tables), ParamModel.v | C36 applied to every row; the row conditions by kernel computation; induction over the history | ShipProps.v | partial |
| C169 | Integer parameters can be set to every value of their range | ShipModel.v: ship_table; ParamModel.v: set_value_f01 in binary32 | orbit of one set computed per row, induction over the history | ShipProps.v | partial |
| C170 | What a host writes to a parameter is what it reads back | ShipModel.v: ship_table; ParamModel.v over the reals | C37 applied to every row; kind and tempo-sync preservation by induction | ShipProps.v | partial |
| C171 | Reading a parameter with the type the code expects never panics | ShipModel.v: read_table (generated from all pval reads) | kind preservation over every history; read against default kind by computation | ShipProps.v | partial |
| C172 | The all-pass reverb's pre-delay delays | AllpassModel.v: pd_process, av_run | closed form of a step, induction over the run, projection of the effect onto its pre-delay | AllpassProps.v | partial |
| C173 | An all-pass section of the reverb passes all frequencies with equal energy | AllpassModel.v: ap_process | energy identity per step, refinement to a history list | AllpassProps.v | proved |
| C174 | The reverb's sections fit their buffers at every rate and room size | AllpassModel.v: calc_size, ms_2_samples | interval bounds on the truncated products | AllpassProps2.v | partial |
| C175 | The reverb's tank delays are as long as requested | AllpassModel.v: ad_process, calc_size | refinement of the ring buffer to a history list | AllpassProps2.v | partial |
| C176 | The reverb's tail dies away | AllpassModel.v: do_blocks | storage function: (1-c^2) section energy, h/(1-h) and 1/l for the dampers, delay energy; induction over time | AllpassProps3.v, TightProps7.v | partial |
| C177 | The reverb is linear and takes the sum of its inputs | AllpassModel.v: av_run | relation "third state is the combination of the first two" preserved by every function | AllpassProps4.v | proved |
| C178 | Reverb parameter changes glide | AllpassModel.v: av_control, av_samples | induction over the samples, smoother invariant over the history | AllpassProps4.v, TightProps7.v | partial |
| C179 | The reverb's decay time is the time to fall by 60 dB | AllpassModel.v: decay_factor, size_table | Rpower algebra | AllpassProps4.v | proved |
| C180 | A send effect hears its sends and returns its output | EngineModel.v: maybe_add_send | memory reasoning with disjoint footprints, parametric in the arithmetic | EngineProps2.v | proved |
| C181 | The flanger's LFO produces the advertised waveforms | FlangerModel.v: lfo_wave, init_comb, adjust_longphase | case analysis; Lipschitz bound of sine plus interpolation | FlangerProps2.v | proved |
| C182 | A flanger block computes the documented signal path with smoothed settings | FlangerModel.v: fl_process | induction over the block against an independent per-sample relation | FlangerProps2.v | proved |
| C183 | The fast approximations are close to the functions they stand for | MathModel.v: fastsin, fastcos, fastexp, fasttanh, fasttan | Taylor remainders, derivative sign and monotonicity (Coquelicot) | FastProps2.v | proved |
| C184 | The ring modulator multiplies by the chosen carrier shape | RingModel.v: sine_shape, carrier, ring_sample | quadrant case analysis, induction over voices | RingProps2.v, TightProps2.v | proved |
| C185 | The phaser's LFO stays in its cycle and never makes the effect panic | PhaserModel.v: ph_update, ph_process, ph_only_control, ph_run; TuneModel.v n2p | invariant over histories; exact phase by iteration; non-integer note argument for the panic | PhaserProps.v, TightProps4.v | partial |
| C186 | The phaser's chain keeps the energy of the signal and its tail dies | PhaserModel.v: chain, ph_channel, ph_samples | exact quadratic storage function per section, induction over samples | PhaserProps2.v | proved |
| C187 | The phaser's output is bounded whatever is fed to it | PhaserModel.v: ph_process, ph_run | BIBO of each section (BiquadProofs), induction over the chain and over histories | PhaserProps2.v, PhaserProps3.v, TightProps4.v | proved |
| C188 | The phaser treats its channels alike and apart | PhaserModel.v: ph_process, ph_run | relational invariants over histories | PhaserProps3.v | proved |
| C189 | Portamento glides from where the pitch is to the new note, never overshooting | VoiceModel.v: get_pitch, update_portamento, legato; LfoModel rate tables | induction over rate histories | VoiceProps.v | partial |
| C190 | A new note's glide starts where its play mode says | VoiceModel.v: init_portasrc, voice_new | case analysis; composed with C189 for the unwanted glide | VoiceProps.v | partial |
| C191 | Absolute pitch shifts by hertz, relative pitch by semitones | VoiceModel.v: note_shift, shift_up, shift_down; TuneModel.v lookup | search loops by induction, interpolation inverted exactly | VoiceProps.v | partial |
| C192 | A voice's pitch is key plus bend plus scene pitch and octave, and key tracking follows it | VoiceModel.v: get_pitchbend, octave_size, calc_pitch, keytrack_running, keytrack_toggled, osc_pitch, cutoff_pair | algebra over all reals | VoiceProps.v | partial |
| C193 | A voice's mixer sums what is switched on, at its level, where it is routed | VoiceModel.v: mix_block, process_osc, process_ring, process_noise, process_carrier, calc_levels, noise_block; RampProps gain8 | inversion of the block loop, sample by sample, oscillators abstract | TightProps4.v, VoiceProps2.v | partial |
| C194 | Each voice's audio enters the shared filter in its own lane | VoiceModel.v: store_ss, store_block, store_voices | closed form of the store loop by induction | VoiceProps2.v | partial |
| C195 | A voice plays until its amplitude envelope is idle, and counts its age in blocks | VoiceModel.v: life_block, life_run, shipped_* | induction over histories | VoiceProps2.v | partial |
| C196 | Exactly the oscillators a block needs are run, each with the modulator's output of the same block | VoiceModel.v: gate0-2, process_carrier, spawn_osc, toggle_osc1, toggle_oscs | needed oscillators as an inductive relation, compared with the gates | TightProps4.v, VoiceProps2.v | partial |
| C197 | A filter whose type changes starts from rest; others are not disturbed | VoiceModel.v: toggle_filter, fu_set; UnitModel cm_reset | case analysis over both units | VoiceProps3.v | partial |
| C198 | Voices sharing a quad filter keep to their lanes | VoiceModel.v: load_units, sync_units, setl/getl | lane-wise read-over-write, induction over the voices | TightProps4.v, VoiceProps3.v | partial |
| C199 | The sine oscillator plays its note in the chosen waveform | OscModel.v: sine_block, sine_sample, sine_legacy_sample, pitch2omega; RingModel sine_shape | two-level invariant over blocks and samples; interval arithmetic for 440 Hz | OscProps.v, TightProps4.v | partial |
| C200 | Feedback of the sine oscillator follows its setting | OscModel.v: sine_block; LagModel.v lag_new, lag_process | closed recursion for the sound proved by invariant | OscProps2.v | partial |
| C201 | The FM oscillator is a carrier moved in phase by three modulators | OscModel.v: fm_block, fm_sample | closed form by invariant | OscProps2.v | partial |
| C202 | The FM2 oscillator starts near zero and its shift moves the modulators apart | OscModel.v: fm2_init, fm2_block, fm2_sample | closed form by invariant; mean value theorem for the start | OscProps3.v | partial |
| C203 | The audio input oscillator mixes the two inputs | OscModel.v: audioin_block, audio_in0, audio_in1 | algebra on the flat array | OscProps.v | partial |
| C204 | FM reads another oscillator | OscModel.v: read_master, shipped_master | inversion of a block | OscProps.v, TightProps4.v | partial |
| C205 | The chorus plays four voices spread between the speakers | ChorusModel.v: ch_pan, ch_init, ch_update, ch_times; LagModel.v | invariants over block histories | ChorusProps.v, TightProps4.v | partial |
| C206 | The chorus delay line is safe and cannot run away | ChorusModel.v: ch_process, ch_run; DelayModel.v dd_read, dd_write | ring-buffer refinement invariant carried over blocks | ChorusProps.v | proved |
| C207 | Mix, width and feedback of the chorus | ChorusModel.v: ch_feed, ch_widen, ch_fade; RampProps gain8 | invariant: ramps settled at their targets | ChorusProps.v, TightProps4.v | proved |
| C208 | The rotary horn turns at its rate and sounds from where it is | RotaryModel.v: ro_set_lfos, ro_geom, ro_targets; UnitModel.v quadrosc | angle invariant over block histories; Cauchy-Schwarz for the geometry | RotaryProps.v | partial |
| C209 | The rotary delay line is safe and heard at the horn's travel time | RotaryModel.v: ro_process, ro_sample, ro_read; DelayModel.v dd_dtime | ring-buffer invariant per sample, lifted to blocks and histories | RotaryProps.v, TightProps4.v | proved |
| C210 | The rotary bass rotor turns at 0.7 of the horn's speed | RotaryModel.v: ro_post, ro_set_lfos, ro_control | angle invariant | RotaryProps.v | partial |
| C211 | The rotary horn's delay varies smoothly between samples | RotaryModel.v: ro_sinc, ro_read | exact index computed for every such delay | RotaryProps.v | partial |
| C212 | Suspending the rotary keeps its crossover; the return level sets the level | RotaryModel.v: ro_init, ro_suspend, ro_process | invariant: a filter with zero coefficients stays silent | RotaryProps.v | partial |
| C213 | The frequency shifter shifts by single-sideband modulation | FshiftModel.v: fs_new, fs_update, fs_pre, fs_post, fs_process, fs_run; HalfModel.v | invariant relating state to signals (FshiftProofs*.v); quarter-rate modulation turns the half-band filter into the two branches | FshiftProps.v, TightProps2.v | proved |
| C214 | The frequency shifter never fails and its delay line stays bounded | FshiftModel.v as above | invariant on oscillators, lag and cells | FshiftProps2.v | proved |
| C215 | The frequency shifter's delay is the time set | FshiftModel.v: fs_target, fs_dtime, fs_sinc, fs_read; LagModel.v | closed form; limit; row computed | FshiftProps3.v | partial |
| C216 | RMult multiplies the right channel's shift | FshiftModel.v: fs_omega_r, fs_update | equal updates | FshiftProps3.v | partial |
| C217 | RMult = 1 locks the two channels' oscillators together | FshiftModel.v: fs_lock, fs_update; UnitModel.v: qo_* | one-step contraction of the angle, induction | FshiftProps2.v | partial |
| C218 | Suspending the frequency shifter silences it | FshiftModel.v: fs_suspend, fs_init; HalfModel.v | invariant: coefficients kept, empty line and filters stay empty | FshiftProps3.v | proved |
| C219 | A flat equaliser is a straight wire | EqModel.v: eq_new, eq_init, eq_process, eq_run; BiquadModel.v; LagModel.v | invariant: each band has fixed coefficients and the memory of the specified section | EqProps.v | proved |
| C220 | The equaliser applies the bands asked for, and fades in after init | EqModel.v: eq_init, eq_maybe_update, eq_bands, eq_process | same invariant; first sample computed | EqProps.v | partial |
| C221 | Which equaliser parameters matter, and when | EqModel.v: eq_maybe_update, eq_process | simulation of the two runs by the block counter | EqProps.v | partial |
| C222 | Suspending the equaliser makes it fresh | EqModel.v: eq_suspend, eq_init, eq_new | invariant on the gain smoother's constants | EqProps.v | proved |
| C223 | A vocoder band passes its own frequency | VocModel.v: svf_step, band stages | the tone is substituted into the recurrence; trigonometric identities | TightProps6.v, VocProps.v | proved |
| C224 | The vocoder's bands lie where the parameters say | VocModel.v: voc_update, voc_init, voc_mismatch | induction over the bands placed; panics computed | TightProps6.v, VocProps.v | partial |
| C225 | The vocoder's bands are stable in range | VocModel.v: voc_update, vb coefficient setup | bounds on the tuned frequency and on 2 sin | VocProps.v | proved |
| C226 | The vocoder never blows up | VocModel.v: voc_process, voc_run | quadratic Lyapunov function for each stage (VocProofs.v), invariant over blocks | VocProps2.v | proved |
| C227 | The vocoder is linear in the carrier and blind to the side chain's polarity | VocModel.v: voc_process, voc_run | simulation of three runs | TightProps6.v, VocProps3.v | proved |
| C228 | Which vocoder parameters matter, and when | VocModel.v: voc_process, voc_update | simulation by the block counter | VocProps3.v | partial |
| C229 | The vocoder is silent without a side chain, and its gate opens above its level | VocModel.v: voc_process | invariant: envelopes stay zero | VocProps3.v | partial |
| C230 | Suspending the vocoder makes it fresh | VocModel.v: voc_suspend, voc_init | suspend = re-tune, retune lemma | VocProps3.v | partial |
| C231 | Each filter-block configuration wires its filters and shaper as its name says | QfModel.v: do_serial1..do_wide, do_sample, process_quad; specification in QfProps2.v: wiring | invariant: the chain after k samples is the network's state after k samples; the feedback lines are read off the run | QfProps2.v | proved |
| C232 | Level and frequency helpers | MathModel.v: amp_to_linear, bend, big_mul_r16; BlockModel.v: boundfreq | direct | TightProps2.v | proved |
| C233 | Super oscillator settings stay in range | SsoModel.v: sso_lags_start, sso_lags_block, sso_pinv, sso_hpf | invariant over the blocks | SsoProps.v | proved |
| C234 | The super oscillator's level bookkeeping is exact under any modulation | SsoModel.v: sso_convolute, sso_voice_block, sso_start; specification in SsoProofs.v: wave, sso_run | induction over impulses and blocks; invariant on the level per step | SsoProps.v, TightProps5.v | proved |
| C235 | An undisturbed super oscillator is exactly periodic | SsoModel.v: sso_convolute, sso_loop; closed form Pos, heightC | induction over impulses and blocks | SsoProps2.v | proved |
| C236 | The super oscillator plays its note | SsoModel.v: sso_get_t, sso_pinv; TuneModel.v tuner | from C235 and the tuner's tables | SsoProps2.v, TightProps5.v | partial |
| C237 | Wave forms of the super oscillator | SsoModel.v: sso_get_g, sso_convolute | four steps in closed form, trapezoid areas | SsoProps2.v | partial |
| C238 | The super oscillator's impulse loop ends | SsoModel.v: sso_loop, sso_get_t, sso_start | a potential that grows by a fixed amount per round; invariant for the endless case | SsoProps2.v | partial |
| C239 | Hard sync restarts the cycle at every master period | SsoModel.v: sso_sync_step, sso_loop | induction over the rounds | SsoProps3.v | partial |
| C240 | Every impulse is heard whole, once and in its place | SsoModel.v: sso_convolve, ob_turn, ob_wrap, sso_ipos | invariant relating the ring buffer to a time line, induction over taps, impulses, blocks | SsoProps3.v, TightProps5.v | proved |
| C241 | A block of the super oscillator always completes | SsoModel.v: sso_block | from C238 and length invariants | SsoProps4.v | partial |
| C242 | The super oscillator's output stays bounded | SsoModel.v: sso_sample | induction over samples | SsoProps4.v, TightProps5.v, TightProps7.v | proved |
| C243 | Character filters of the super oscillator | SsoModel.v: sso_coeffs, sso_sample | induction over samples | SsoProps4.v, TightProps5.v | proved |
| C244 | The sample-and-hold oscillator's level stays within a half | SnhModel.v: snh_convolute, snh_loop, snh_level; specification in SnhProps.v: snh_run | induction over impulses and blocks | SnhProps.v, TightProps5.v | proved |
| C245 | The sample-and-hold oscillator holds two levels a period, of lengths set by Width | SnhModel.v: snh_convolute, snh_loop; closed form P2 | induction over impulses and blocks | SnhProps.v | proved |
| C246 | With Sync off the sample-and-hold oscillator is not synced | SnhModel.v: snh_start, snh_loop | two rounds in closed form; invariant; C245 | SnhProps2.v | partial |
| C247 | Hard sync of the sample-and-hold oscillator | SnhModel.v: snh_convolute, snh_loop | induction over impulses | SnhProps2.v | proved |
| C248 | A block of the sample-and-hold oscillator always ends | SnhModel.v: snh_loop | a potential that grows by a fixed amount per round | SnhProps2.v | proved |
| C249 | Every impulse of the sample-and-hold oscillator is the band-limited impulse of the table | SnhModel.v: snh_convolve, snh_row; SsoModel.v buffers | buffer invariant of C240 | SnhProps3.v, TightProps5.v | partial |
| C250 | Oscillator drift is a slow random walk | SnhModel.v: drift_noise, drift_step | induction over blocks | SnhProps3.v, TightProps5.v | partial |
| C251 | The sample-and-hold oscillator can play unison | SnhModel.v: snh_init_unison, snh_detune | case analysis | SnhProps3.v, TightProps5.v | partial |
| C252 | Sample-and-hold settings stay in range | SnhModel.v: snh_sync_step_lag, snh_pw_lag, snh_shape_lag, snh_period | invariant over the blocks | SnhProps3.v, TightProps5.v | proved |
| C253 | The sample-and-hold output is bounded and leaks | SnhModel.v: snh_sample, snh_samples, snh_hpf, snh_block_entry | induction over samples | SnhProps3.v, TightProps5.v | partial |
| C254 | The nonlinear biquad voice filters are stable biquads with the right response | NlfModel.v: nl_design, nlff_coeff, nlsf_coeff, nlff_makeup; specification in NlfProps.v: mag2, gain_is, stable2 | algebra on the unit circle; bounds of the rational sine and cosine | NlfProps.v, TightProps6.v | proved |
| C255 | The nonlinear feedback filter is a chain of biquads that feed back their saturated output | NlfModel.v: nlff_process, nl_run; specification in NlfProps2.v: stage_eq, chain_eq | induction over time with the registers in closed form | NlfProps2.v, TightProps6.v | proved |
| C256 | The nonlinear feedback filter is bounded whatever its coefficients | NlfModel.v: nlff_process | invariant over stages and time | NlfProps3.v | proved |
| C257 | The nonlinear feedback filter is bounded with the sine saturator | NlfModel.v: nlff_process, MathModel fastsin | growth invariant | NlfProps3.v | partial |
| C258 | The Ojd saturator bends the signal | NlfModel.v: ojd, nlff_process | C255 | NlfProps3.v | partial |
| C259 | Polarity and silence in the nonlinear feedback filter | NlfModel.v: nlff_process | induction over stages and time | NlfProps3.v | proved |
| C260 | The nonlinear states filter filters | NlfModel.v: nlsf_process | induction over stages and time | NlfProps3.v | partial |
| C261 | The Runge-Kutta ladder's saturation, coefficients and glide | LadderModel.v: rk_clip, rk_coeff, rk_process | derivative of the cubic; interval algebra | LadderProps.v, TightProps6.v | proved |
| C262 | The Runge-Kutta ladder is bounded, treats both polarities alike and is silent on silence | LadderModel.v: rk_process, ladder_run | invariant over sub-steps and time | LadderProps.v, TightProps6.v | proved |
| C263 | The Runge-Kutta ladder integrates with the fourth-order method | LadderModel.v: the Runge-Kutta pass; specification in LadderProps.v: the classical step | closed form of both steps on the linear decay | LadderProps.v | partial |
| C264 | The Huovilainen ladder is the textbook ladder | LadderModel.v: hu_coeff, hu_pass, hu_process; specification in LadderProps2.v: ladder_step | refinement of each pass | LadderProps2.v, TightProps6.v | proved |
| C265 | The Huovilainen ladder is bounded and does not overshoot without resonance | LadderModel.v: hu_process, ladder_run | the saturation is flat beyond 200000 and has slope at most 1/40000; invariant | LadderProps2.v | proved |
| C266 | Polarity and silence in the Huovilainen ladder | LadderModel.v: hu_process | oddness of the saturation, induction | LadderProps2.v | proved |
| C267 | The IIR filter structures realise the designed biquad | IirModel.v: to_lattice, to_coupled, iir_12_a, iir_12_b, iir_24_b, iir_12_cfc, iir_24_cfc; specification in IirProps.v: biquad_eq | simulation of the direct form | IirProps.v | proved |
| C268 | An IIR filter is tuned to its note | IirModel.v: iir_design, br_design; specification in IirProps2.v: cookbook | trigonometric identities, C254_centre | IirProps2.v | partial |
| C269 | The IIR designs are stable | IirModel.v: iir_design, to_coupled, to_lattice | algebra; exact growth of the state norm | IirProps2.v | partial |
| C270 | The IIR filters are bounded while they glide | IirModel.v: all processing routines | energy of rotations, convexity along the glide | IirProps3.v | partial |
| C271 | The IIR resonance maps | IirModel.v: map_2pole, map_4pole | interval and monotonicity arguments | IirProps2.v | proved |
| C272 | Every setting of an IIR filter gives coefficients | IirModel.v: f_bandpass, iir_coeff | case analysis | IirProps2.v | partial |
| C273 | Starting an IIR filter | IirModel.v: iir_dispatch, clip_reg, limit_reg | case analysis, induction over time | IirProps4.v | partial |
| C274 | Polarity and silence in the IIR filters | IirModel.v: all processing routines | odd maps, induction | IirProps4.v | proved |
| C275 | The OB-Xd two-pole filter closes its feedback exactly | ObxdModel.v: ob2_solve, ob_tcfb, ob_diode; specification in ObxdProps.v: damping | lower bound of the diode polynomial, field | ObxdProps.v | proved |
| C276 | The OB-Xd two-pole filter stores no more than it is given | ObxdModel.v: ob2_process | energy balance, induction over the run | ObxdProps.v | proved |
| C277 | The OB-Xd push modes oscillate by themselves and the others do not | ObxdModel.v: ob2_process | energy balance and the sign of the damping | ObxdProps.v | proved |
| C278 | The OB-Xd two-pole subtypes | ObxdModel.v: ob2_coeff, ob2_mix; specification: mode_out | case analysis, induction | ObxdProps.v | proved |
| C279 | The OB-Xd four-pole filter is four one-poles in a delay-free loop | ObxdModel.v: ob4_process; specification in ObxdProps2.v: onepole, chain4 | elimination of the loop | ObxdProps2.v | partial |
| C280 | The OB-Xd four-pole subtypes | ObxdModel.v: ob4_coeff, ob4_mix; specification: stage_out | case analysis | ObxdProps2.v | partial |
| C281 | Bounds, polarity and silence of the OB-Xd four-pole filter | ObxdModel.v: ob4_process | invariant, MVT for the arc tangent | ObxdProps2.v | proved |
| C282 | The OB-Xd filters run as voice filters | ObxdModel.v: obxd_process_quad | definition | ObxdProps.v | partial |
| C283 | The diode ladder's coefficients | DiodeModel.v: di_freq, di_warp, di_coeffs; specification in DiodeProps.v: ladder_gains | field, interval bounds | DiodeProps.v | partial |
| C284 | The diode ladder closes its feedback loop exactly | DiodeModel.v: di_step; specification: loop_closed, meant | stage-wise elimination | DiodeProps.v, DiodeProps2.v | partial |
| C285 | The diode ladder is linear | DiodeModel.v: di_step, di_run | ring, induction over the run | DiodeProps2.v | proved |
| C286 | The diode ladder is stable without resonance | DiodeModel.v: di_coeff, di_run | invariant cone and a linear measure growing by 1% a sample | DiodeProps2.v | partial |
| C287 | The K35 filter's coefficients describe a usable filter | K35Model.v: k35_coeffs, k35_freq, k35_warp | real arithmetic; sign of the rational tangent | K35Props.v | proved |
| C288 | The K35 filter closes its feedback without delay | K35Model.v: k_do_lpf, k_do_hpf, k35_lp, k35_hp; specification in K35Props.v: onepole | elimination of the loop, field | K35Props.v | proved |
| C289 | The clean K35 filter stores no more than it is given | K35Model.v: k35_lp, k35_hp | quadratic Lyapunov function, completed squares, induction over the run | K35Props2.v | proved |
| C290 | The K35 low-pass passes a constant and the high-pass stops it | K35Model.v: k35_lp, k35_hp | uniqueness of the loop's solution | K35Props2.v | proved |
| C291 | A fully driven K35 filter is bounded whatever comes in | K35Model.v: k_drive, k35_lp, k35_hp | bound of the rational tanh (C183), invariant of one register | K35Props2.v | proved |
| C292 | A voice can use the K35 filter | K35Model.v: k35_process_quad | definition | K35Props2.v | partial |
| C293 | A wavetable oscillator can be created | WtOscModel.v: wo_count_desc, wo_unison, wo_tab_start | computation through ParamModel.param_new | WtOscProps.v, WtOscProps3.v | partial |
| C294 | The wavetable oscillator's frame follows the morph knob | WtOscModel.v: wo_tab_start, wo_tab_update, wo_newlevel | case analysis on the frame pair, induction over the history | TightProps8.v, WtOscProps.v | partial |
| C295 | The wavetable oscillator's level is the table's sample, shaped | WtOscModel.v: wo_distort, wo_clip_target | algebra of the curves | TightProps8.v, WtOscProps.v | partial |
| C296 | The wavetable oscillator picks a mipmap level that exists | WtOscModel.v: wo_mip, wo_newlevel | case analysis of the thresholds | WtOscProps.v | partial |
| C297 | The wavetable oscillator's impulses add up to its level | WtOscModel.v: wo_loop, wo_convolute | induction over the loop | WtOscProps2.v, WtOscProps3.v | proved |
| C298 | Unison voices of the wavetable oscillator are spread over the stereo field | WtOscModel.v: wo_place, wo_samples, wo_emit | invariant left = right over impulses, voices, samples and blocks; buffer lemmas of SsoProps3 | WtOscProps2.v | partial |
| C299 | Formant and horizontal skew of the wavetable oscillator do not change the pitch | WtOscModel.v: wo_convolute; specification in WtOscProps2.v: advance | reversal of the sum against the antisymmetric skew; refinement of one impulse | WtOscProps2.v | partial |
| C300 | The window oscillator plays the unison voices asked for | WinModel.v: win_subs | case analysis | WinProps.v | partial |
| C301 | The window oscillator's morph knob picks a frame that exists | WinModel.v: win_table, win_window_address | archimed and integer order | WinProps.v, WinProps2.v | partial |
| C302 | The window oscillator uses a smaller mipmap level for a higher note | WinModel.v: win_mip, MathModel bitscan_reverse | bitscan characterisation of C76, divisibility | WinProps.v, WinProps2.v | partial |
| C303 | The window oscillator's phase does not drift | WinModel.v: win_step, win_run, win_mask | bitwise lemma for the mask, induction over the samples | WinProps.v, WinProps2.v | partial |
| C304 | The window oscillator is in tune | WinModel.v: win_ratio | truncation error through the field identity | WinProps.v, WinProps2.v | proved |
| C305 | The window oscillator's output is its table times its window | WinModel.v: win_read_address, win_convert | arithmetic; exhaustive computation over the block with abstract samples | WinProps.v | partial |

## Findings

Defects of the code established by `_refuted` theorems (the note of each property in `MANIFEST.json` explains them):

* C08: `C08_midframe_flush_overwrites_refuted`
* C14: `C14_missing_fmt_panics_refuted`
* C17: `C17_unsupported_depth_writes_refuted`, `C17_zero_depth_panics_refuted`
* C18: `C18_irregular_cues_accepted_refuted`
* C20: `C20_restrike_then_purge_panics_refuted`
* C21: `C21_msb_never_selected_refuted`, `C21_selection_loses_msb_and_data_entry_panics_refuted`
* C22: `C22_mpe_configured_from_any_channel_refuted`
* C24: `C24_channel_split_first_channel_panics_refuted`
* C25: `C25_two_or_more_voices_panic_refuted`, `C25_synth_all_notes_off_single_scene_panics_refuted`
* C26: `C26_playing_voice_freed_refuted`, `C26_two_softkilled_last_panics_refuted`
* C27: `C27_just_released_voice_passed_over_refuted`
* C28: `C28_mono_silent_while_key_held_refuted`, `C28_mpe_single_trigger_never_falls_back_refuted`, `C28_mpe_mono_silent_while_key_held_refuted`
* C29: `C29_set_parameter_panics_refuted`, `C29_solo_clears_all_refuted`
* C33: `C33_no_shuffle_panics_refuted`, `C33_loop_outside_pattern_panics_refuted`
* C34: `C34_no_scale_loads_refuted`, `C34_loaded_scale_refused_refuted`, `C34_ratio_line_refuted`
* C35: `C35_unmapped_sound_refuted`, `C35_octave_degrees_ignored_refuted`
* C36: `C36_temposync_nan_refuted`, `C36_raw_set_refuted`, `C36_bool_panics_refuted`
* C37: `C37_int_ignores_input_refuted`, `C37_int_scale_refuted`, `C37_nil_reads_zero_refuted`, `C37_bool_panics_refuted`, `C37_int_stuck_refuted`
* C38: `C38_between_f32_refuted`
* C39: `C39_lag_new_misses_target_refuted`
* C41: `C41_ramp_restarts_refuted`, `C41_ramp_period_refuted`
* C43: `C43_tail_rings_out_refuted`
* C44: `C44_release_refuted`
* C45: `C45_envelope_refuted`, `C45_quadratic_decay_refuted`
* C49: `C49_filter_sum_refuted`, `C49_pcm_unfiltered_refuted`
* C50: `C50_cue_only_refuted`, `C50_frame_count_refuted`, `C50_plain_length_refuted`, `C50_stereo_refuted`, `C50_srgo_without_srge_refuted`, `C50_unreadable_refuted`, `C50_file_name_refuted`, `C50_truncated_refuted`
* C51: `C51_oversampled_rate_updates_refuted`
* C52: `C52_mid_side_f32_refuted`, `C52_overrun_refuted`
* C53: `C53_hardclip8_sd_refuted`, `C53_hardclip_block_overrun_refuted`, `C53_softclip2_refuted`
* C56: `C56_bipolar_overshoots_refuted`, `C56_output_moves_without_change_refuted`
* C57: `C57_voice_or_scene_not_both_refuted`
* C58: `C58_uhwt_payload_parsed_refuted`
* C59: `C59_odd_chunk_padding_refuted`
* C60: `C60_default_never_returns_refuted`
* C61: `C61_first_note_panics_refuted`, `C61_poly_and_mono_notes_panic_refuted`
* C62: `C62_second_scene_never_released_refuted`, `C62_pedal_in_two_scene_mode_panics_on_new_patch_refuted`
* C63: `C63_learned_rpn_collides_with_cc_refuted`, `C63_learned_nrpn_collides_with_cc_refuted`
* C64: `C64_processing_a_block_panics_refuted`, `C64_two_finished_voices_refuted`, `C64_two_finished_last_panics_refuted`
* C66: `C66_masked_step_not_skipped_refuted`
* C67: `C67_loop_left_with_empty_mask_refuted`, `C67_loop_stuck_on_first_step_refuted`
* C68: `C68_bad_probability_panics_refuted`
* C70: `C70_overrun_refuted`, `C70_copy_overrun_refuted`
* C71: `C71_absmax_refuted`
* C72: `C72_lerp_endpoint_refuted`
* C73: `C73_drift_is_memoryless_refuted`
* C76: `C76_bitscan_refuted`
* C78: `C78_switches_ignored_refuted`
* C80: `C80_negative_panics_refuted`
* C81: `C81_always_dotted_refuted`
* C82: `C82_no_mapping_loads_refuted`, `C82_tune_a69_refuted`, `C82_reset_keeps_pitch_refuted`
* C83: `C83_above_refuted`, `C83_below_refuted`, `C83_fresh_tuner_refuted`, `C83_inverse_center_refuted`, `C83_count_refuted`, `C83_clamped_below_refuted`
* C84: `C84_exceeds_one_refuted`
* C85: `C85_db_outside_refuted`, `C85_rate_outside_refuted`, `C85_sine_warp_negative_refuted`, `C85_uninitialised_refuted`
* C86: `C86_runaway_refuted`, `C86_output_ignored_refuted`, `C86_deform_type_refuted`, `C86_fresh_panics_refuted`, `C86_noise_memoryless_refuted`
* C87: `C87_shuffle_refuted`, `C87_step_overflow_refuted`
* C88: `C88_random_refuted`, `C88_freerun_refuted`
* C89: `C89_crossfeed_ignored_refuted`
* C90: `C90_i16_refuted`
* C92: `C92_other_lengths_refuted`
* C93: `C93_symmetric_blackman_harris_refuted`
* C94: `C94_nearest_refuted`
* C97: `C97_playscene_inverted_refuted`
* C98: `C98_scene_b_follows_scene_a_refuted`, `C98_latched_note_panics_refuted`
* C100: `C100_clear_inputs_always_fails_refuted`, `C100_no_block_completes_refuted`
* C101: `C101_input_channels_overlap_refuted`
* C102: `C102_scratch_block_overruns_refuted`
* C103: `C103_bypass_inserts_swapped_refuted`
* C107: `C107_ragged_alignment_accepted_refuted`
* C108: `C108_short_clm_panics_refuted`
* C109: `C109_unguarded_above_nyquist_blows_up_refuted`
* C114: `C114_morph_ignored_refuted`
* C115: `C115_handle_tempo_refuted`
* C116: `C116_process_before_rate_refuted`
* C119: `C119_first_block_refuted`
* C120: `C120_tanh_huge_negative_refuted`
* C121: `C121_digi_silence_refuted`, `C121_digi_overload_refuted`
* C122: `C122_table_shapers_constant_refuted`
* C125: `C125_left_pan_overshoots_refuted`
* C129: `C129_left_pan_clicks_refuted`
* C130: `C130_channel_pan_second_bus_refuted`
* C136: `C136_extract_refuted`, `C136_row_refuted`
* C140: `C140_upsampling_halves_refuted`
* C143: `C143_lookahead_sees_one_sample_in_128_refuted`, `C143_peaks_pass_unlimited_refuted`
* C144: `C144_uninitialised_refuted`
* C147: `C147_carrier_frequency_quantised_refuted`, `C147_standing_carrier_refuted`
* C148: `C148_no_clipping_refuted`, `C148_full_scale_flips_refuted`, `C148_stereo_lost_refuted`, `C148_dry_is_coloured_refuted`
* C152: `C152_output_is_not_decimated_refuted`, `C152_later_samples_inaudible_refuted`, `C152_writes_past_the_block_refuted`
* C155: `C155_predelay_underflow_refuted`
* C158: `C158_room_zero_never_decays_refuted`
* C161: `C161_long_predelay_wraps_refuted`
* C162: `C162_long_delays_wrap_refuted`
* C166: `C166_sine_table_edge_refuted`, `C166_sample_and_hold_unipolar_refuted`
* C168: `C168_mixed_kinds_refuted`, `C168_ringmod_stuck_refuted`, `C168_ringmod_reads_refuted`, `C168_default_outside_refuted`
* C169: `C169_int_parameters_stuck_refuted`
* C170: `C170_nil_reads_zero_refuted`
* C171: `C171_typed_reads_refuted`
* C172: `C172_predelay_panics_refuted`, `C172_any_tap_refuted`
* C174: `C174_high_rate_refuted`
* C175: `C175_long_delay_refuted`
* C176: `C176_frozen_low_damper_refuted`
* C178: `C178_second_block_refuted`
* C185: `C185_fast_phase_refuted`, `C185_fast_panics_refuted`, `C185_only_control_refuted`
* C189: `C189_legato_at_end_refuted`, `C189_shipped_refuted`
* C190: `C190_source_refuted`, `C190_unwanted_glide_refuted`
* C191: `C191_fraction_refuted`, `C191_zero_shift_refuted`, `C191_low_note_refuted`
* C192: `C192_bend_shipped_refuted`, `C192_keytrack_toggled_refuted`, `C192_keytrack_switch_refuted`
* C193: `C193_narrow_refuted`, `C193_pfg_refuted`, `C193_noise_colour_refuted`
* C194: `C194_other_voices_refuted`, `C194_four_voices_refuted`
* C195: `C195_shipped_refuted`
* C196: `C196_stale_refuted`, `C196_missing_refuted`, `C196_no_object_refuted`, `C196_new_voice_refuted`
* C197: `C197_twin_refuted`
* C198: `C198_shared_lane_refuted`
* C199: `C199_legacy_shapes_refuted`
* C200: `C200_feedback_refuted`, `C200_feedback_vanishes_refuted`
* C201: `C201_fades_refuted`
* C202: `C202_fades_refuted`
* C203: `C203_channels_refuted`, `C203_second_half_unheard_refuted`
* C204: `C204_shipped_sine_refuted`, `C204_shipped_fm_refuted`, `C204_shipped_fm2_refuted`
* C205: `C205_three_voices_refuted`, `C205_rate_sync_refuted`
* C208: `C208_tempo_sync_refuted`
* C210: `C210_bass_speed_refuted`
* C211: `C211_rows_refuted`
* C212: `C212_suspend_loses_bass_refuted`, `C212_return_level_refuted`
* C215: `C215_delay_refuted`, `C215_synced_refuted`, `C215_no_fraction_refuted`
* C216: `C216_squared_refuted`, `C216_sign_refuted`
* C217: `C217_opposite_refuted`
* C220: `C220_no_fade_in_refuted`
* C221: `C221_return_level_refuted`
* C224: `C224_old_patch_panics_refuted`
* C228: `C228_unused_refuted`
* C229: `C229_gate_never_opens_refuted`
* C230: `C230_suspend_clears_nothing_refuted`, `C230_suspend_is_nothing_refuted`
* C236: `C236_plays_its_note_refuted`
* C237: `C237_mean_level_refuted`
* C238: `C238_never_ends_refuted`, `C238_sync_40_hangs_refuted`
* C239: `C239_master_period_refuted`
* C246: `C246_first_level_is_lost_refuted`
* C249: `C249_shape_is_garbage_refuted`
* C250: `C250_drift_forgets_refuted`
* C251: `C251_no_unison_refuted`
* C253: `C253_fm_panics_refuted`
* C257: `C257_sine_bounded_refuted`
* C258: `C258_ojd_no_feedback_refuted`, `C258_ojd_silence_refuted`
* C260: `C260_states_filter_refuted`
* C263: `C263_fourth_order_refuted`
* C268: `C268_cutoff_refuted`
* C269: `C269_stability_refuted`
* C270: `C270_glide_passive_refuted`
* C272: `C272_bandpass_refuted`
* C273: `C273_dispatch_refuted`, `C273_first_sample_refuted`, `C273_first_sample_lattice_refuted`
* C279: `C279_tuning_glide_refuted`
* C280: `C280_24dB_is_a_sum_refuted`
* C282: `C282_voice_filter_panics_refuted`
* C283: `C283_feedback_gain_refuted`
* C284: `C284_loop_refuted`
* C286: `C286_click_explodes_refuted`
* C292: `C292_filter_runs_refuted`
* C293: `C293_creation_refuted`, `C293_single_frame_start_refuted`
* C294: `C294_follows_the_knob_refuted`, `C294_single_frame_refuted`, `C294_move_down_at_block_start_refuted`
* C295: `C295_only_the_sign_refuted`
* C296: `C296_one_level_refuted`
* C298: `C298_panning_refuted`, `C298_hard_right_is_silent_refuted`
* C299: `C299_plays_its_note_refuted`
* C300: `C300_unison_refuted`
* C301: `C301_windows_refuted`, `C301_longer_wave_table_refuted`
* C302: `C302_mipmap_follows_pitch_refuted`
* C303: `C303_largest_table_refuted`
* C305: `C305_reads_the_table_refuted`, `C305_conversion_refuted`

## Partial proofs

* C08: `C08_midframe_flush_keeps_the_past_partial`. The property is false of the code: a mid-frame flush leaves the stream position inside the header update, so later samples overwrite bytes (C08_..._refuted, for all inputs of that shape). The part that holds: everything written before the flush is in the file and UnfinishedSample is returned.
* C14: `C14_no_panic_partial`. False in general: a data chunk before any fmt chunk panics (refuted, for all such files). Proved: no panic for every byte string whose first chunk is fmt and that contains no Surge metadata tags; parsing terminates.
* C17: `C17_unsupported_depth_partial`. The error is returned (partial), but Drop/new write the header into the stream first (refuted); depth 0 panics (refuted).
* C18: `C18_cue_spacing_partial`. Holds when no two neighbouring cues differ by exactly -1 (the code's sentinel); with such a difference irregular cues are accepted (refuted).
* C20: `C20_no_restrike_no_panic_partial`. Re-striking a held key is followed by a panic when the pedal is lifted (refuted, for all such states).
* C21: `C21_rpn_selection_partial`. 
* C22: `C22_pitch_bend_range_partial`, `C22_other_rpns_change_nothing_partial`. 
* C24: `C24_routing_partial`. 
* C25: `C25_at_most_one_voice_partial`, `C25_synth_all_notes_off_partial`. With at most one voice it works; with two or more it panics (refuted for all such scenes), and on the single-scene patch that SurgePatch::new builds (surge-scene/src/patch/init.rs:9) the synth command always panics.
* C26: `C26_nothing_to_do_partial`, `C26_one_softkilled_voice_is_freed_partial`. Nothing is freed below the bound and one softkilled voice is freed correctly; with two softkilled voices the wrong ones are freed or it panics (refuted for all lists of that shape).
* C28: `C28_single_trigger_falls_back_to_highest_partial`. Single-trigger modes without MPE do fall back; plain mono modes kill the voice and start none, MPE single-trigger never falls back (refuted).
* C33: `C33_advance_partial`. Panics whenever shuffle is not positive - the default (refuted); with loop points outside the pattern the second advance panics (refuted). With positive shuffle (2^-100..2^20), valid loop points and a 16-bit mask it is total and stays in the pattern, for every draw, in binary32 arithmetic.
* C39: `C39_lag_converges_partial`. Default-constructed lags converge (partial); Lag::new with another rate misses the target by the factor 250*rate (refuted).
* C41: `C41_ramp_partial`. Within each 8 samples the gains are the ramp; after 8 samples the ramp restarts because the macro passes the registers by value (refuted for all longer blocks, exact and binary32).
* C44: `C44_held_range_partial`. Proved: range in [0,1] for every history without release (rates >= 0, sustain 0 or 1), exact level and duration of each stage, stuck afterwards, trigger restarts. Refuted: the release stage adds the start level instead of scaling, so it jumps up (above 1) and then drops to 0.
* C45: `C45_range_partial`, `C45_stage_order_partial`, `C45_attack_partial`, `C45_decay_partial`, `C45_release_partial`. As shipped every digital block, release and quick release panics because get_output is todo!() (refuted, for all states). With get_output doing what it documents: range, order, exact attack, decay and release curves and termination are proved over the reals; the quadratic decay swings for ever near zero (refuted).
* C52: `C52_mid_side_lossless_partial`. Exact over the reals, and in binary32 on a common grid; not lossless in binary32 in general, and lengths not a multiple of 4 quads overrun (refuted).
* C58: `C58_fact_chunk_invisible_partial`. fact chunks of standard size are skipped; a uhWT chunk's payload is parsed as chunks (refuted).
* C59: `C59_even_chunks_readable_partial`. Even-length chunks are fine; for odd-length chunks the pad byte is not skipped (refuted).
* C61: `C61_portamento_retargets_first_gated_partial`. create_voice's runtime construction is todo!(), so poly and mono notes always panic (refuted); the portamento path works. Scene.voices is a public Vec that no API call pushes to.
* C62: `C62_channel_split_pedal_partial`. Refuted: the shared hold buffer is emptied by the first scene's purge.
* C63: `C63_learned_cc_is_itself_partial`. RPN/NRPN codes are truncated to u8, so they collide with CCs (refuted); plain CC learning is correct.
* C64: `C64_one_finished_voice_partial`. Freed indices are not adjusted for earlier removals (refuted); right for one finished voice. The block path itself starts with code that is todo!().
* C66: `C66_jumps_go_to_unmasked_steps_partial`. Refuted: a masked step is not skipped; partial: jumps land on unmasked steps only.
* C67: `C67_loop_kept_with_full_mask_partial`. Refuted: an empty mask ignores the loop, and the loop can get stuck on its first step; partial: with a full mask the position stays in the loop.
* C72: `C72_lerp_partial`. lerp rejects x = 1 by panicking (refuted).
* C84: `C84_range_partial`, `C84_hold_partial`, `C84_release_partial`. Release panics as shipped (see C45). With get_output as documented: exact charge, discharge and release curves over the reals, termination, range [0,1.5]; the output exceeds 1 on every held note (refuted).
* C98: `C98_release_when_latched_partial`, `C98_forced_release_partial`. partial: freeing two or more voices panics (C25), so release is proved for scenes with at most one voice; in the synth's control step an armed scene B follows scene A's playing flag (refuted); the latched note itself always panics (refuted)
* C102: `C102_scratch_block_partial`. partial: the block's own 256 cells are cleared, but 192 cells behind it are overwritten too (refuted); a block not 16-byte aligned is an error
* C103: `C103_effects_that_run_partial`. partial: proved for bypass settings AllFX and SceneFXOnly; NoSendFX drops the inserts and AllFXOff keeps them (refuted)
* C136: `C136_step_ideal_partial`, `C136_run_ideal_partial`, `C136_memory_safe_partial`. Refuted for the shipped code (simd_extract is todo!(), row scaled after extraction); the partial theorems describe the filter with these two repaired, exact reals.
* C190: `C190_source_partial`. refuted when exactly one of the two conditions holds
* C193: `C193_narrow_partial`, `C193_levels_partial`. exact reals; oscillators' own output is arbitrary
* C194: `C194_first_voice_partial`. memory modelled by f32 address, also past the end of the array
* C196: `C196_gates_partial`. oscillators abstract; the shipped order of toggling
* C238: `C238_block_ends_partial`. partial: needs a positive period; refuted for absolute spread
* C241: `C241_block_completes_partial`. partial: positive periods

## Assumptions

What `Print Assumptions` lists, per theorem (all from the standard library):

* Closed under the global context (no axioms):
  C01_codec_roundtrip, C02_toowide_exact, C02_error_has_no_effect, C02_rejected_samples_invisible, C03_spec_roundtrip, C03_accepted_specs, C04_write_read_roundtrip, C05_finalized_sizes, C06_drop_equals_finalize, C06_live_writers_are_not_final, C07_flush_checkpoint, C07_flushes_do_not_change_the_file, C08_midframe_flush_keeps_the_past_partial, C08_midframe_flush_overwrites_refuted, C09_append_is_concatenation, C10_buffered_append_position, C10_append_resumes_at_the_end, C11_block_writer, C11_low16_in_range, C12_iterator_count, C13_truncated_data, C14_missing_fmt_panics_refuted, C14_no_panic_partial, C14_parsing_terminates, C15_unknown_chunks_invisible, C16_seek_consistent, C17_unsupported_depth_partial, C17_unsupported_depth_writes_refuted, C17_zero_depth_panics_refuted, C18_cue_spacing_partial, C18_irregular_cues_accepted_refuted, C58_fact_chunk_invisible_partial, C58_uhwt_payload_parsed_refuted, C59_even_chunks_readable_partial, C59_odd_chunk_padding_refuted, C19_purge_releases_exactly_the_uncovered, C19_pedal_history, C19_pedal_history_from_any_buffer, C20_restrike_then_purge_panics_refuted, C20_no_restrike_no_panic_partial, C21_msb_never_selected_refuted, C21_selection_loses_msb_and_data_entry_panics_refuted, C21_rpn_selection_partial, C22_pitch_bend_range_partial, C22_other_rpns_change_nothing_partial, C22_mpe_configured_from_any_channel_refuted, C23_registers_are_independent, C23_every_register_readable, C24_routing_partial, C24_channel_split_first_channel_panics_refuted, C25_at_most_one_voice_partial, C25_two_or_more_voices_panic_refuted, C25_synth_all_notes_off_single_scene_panics_refuted, C26_nothing_to_do_partial, C26_one_softkilled_voice_is_freed_partial, C26_playing_voice_freed_refuted, C26_two_softkilled_last_panics_refuted, C27_oldest_released_first, C27_else_oldest_playing, C27_never_kills_twice, C27_just_released_voice_passed_over_refuted, C28_single_trigger_falls_back_to_highest_partial, C28_mono_silent_while_key_held_refuted, C28_mpe_single_trigger_never_falls_back_refuted, C60_default_never_returns_refuted, C61_first_note_panics_refuted, C61_poly_and_mono_notes_panic_refuted, C61_portamento_retargets_first_gated_partial, C62_second_scene_never_released_refuted, C62_pedal_in_two_scene_mode_panics_on_new_patch_refuted, C63_learned_rpn_collides_with_cc_refuted, C63_learned_cc_is_itself_partial, C64_processing_a_block_panics_refuted, C64_one_finished_voice_partial, C64_two_finished_voices_refuted, C64_two_finished_last_panics_refuted, C65_mpe_member_channel_bend, C65_plain_bend, C65_bend_in_range, C30_mute_flags_are_a_set, C31_save_then_load, C31_load_any_text_keeps_shape, C32_steps, C32_probabilities, C32_out_of_range_reads_zero, C32_set_probabilities, C39_lag_snaps, C70_block_arithmetic, C70_add_block_misaligned, C70_accumulate_block, C70_clear_block, C70_copy_block, C70_overrun_refuted, C70_copy_overrun_refuted, C52_overrun_refuted, C41_ramp_period_refuted, C53_limit_range_int, C53_hardclip_blocks, C53_hardclip_block_overrun_refuted, C53_softclip_block, C53_tanh7_block, C54_byte_order, C54_byte_swap_involution, C71_absmax_2, C71_absmax_2_misaligned, C71_absmax_refuted, C76_bitscan_refuted, C76_sine16, C76_sine16_shape, C43_processed_exactly_when_input_present, C43_always_on_is_always_processed, C43_tail_rings_out_refuted, C43_zero_tail_correct, C47_zero_length_panics, C57_families, C57_constructors, C57_covered, C57_voice_or_scene_not_both_refuted, C57_valid_modulation, C57_no_voice_source_on_shared_parameter, C55_too_many_voices_panics, C56_init_sets_both, C36_raw_set_refuted, C37_int_ignores_input_refuted, C37_nil_reads_zero_refuted, C37_bool_panics_refuted, C38_morph_alt_keeps, C79_unsupported_is_zero, C29_set_parameter_panics_refuted, C29_solo_clears_all_refuted, C29_unsolo, C29_voice_path, C29_toggle_local, C78_switches_ignored_refuted, C78_absolute_switch, C80_notename, C80_injective, C80_negative_panics_refuted, C35_octave_degrees_ignored_refuted, C83_count_refuted, C48_layout, C48_wrong_count, C49_level_count, C49_in_bounds, C49_filter_sum_refuted, C49_pcm_unfiltered_refuted, C91_no_overlap, C91_size_suffices, C91_storage, C92_power_of_two, C92_other_lengths_refuted, C50_declared_frames, C50_plain_sample, C50_rejected, C50_cue_only_refuted, C50_frame_count_refuted, C50_plain_length_refuted, C50_stereo_refuted, C50_srgo_without_srge_refuted, C50_unreadable_refuted, C50_file_name_refuted, C50_truncated_refuted, C82_integer_lines, C34_count_lines, C78_clear_flags, C29_soloed_parameter_on, C95_channel_aftertouch, C95_poly_aftertouch, C95_modulation_wheel, C95_bipolar_scale, C95_mpe_pan_and_timbre, C96_program_change, C96_patches_distinct, C97_playing_scenes, C97_notes_go_to_playing_scenes, C98_release_when_latched_partial, C98_forced_release_partial, C98_latched_note_only_when_silent, C98_latched_note_panics_refuted, C99_new_mpe_unit, C99_last_key, C99_poly_aftertouch_store, C99_main_channel, C99_single_trigger_release_any_member_channel, C28_mpe_mono_silent_while_key_held_refuted, C64_voice_ages_per_block, C62_channel_split_pedal_partial, C62_channel_split_pedal_matches_routing, C63_learned_nrpn_collides_with_cc_refuted, C25_synth_all_notes_off_partial, C100_halted_engine_is_silent, C100_clear_inputs_always_fails_refuted, C100_no_block_completes_refuted, C101_input_channels_overlap_refuted, C101_output_channels_apart, C102_scratch_block_partial, C102_scratch_block_overruns_refuted, C102_scratch_misaligned, C103_effects_that_run_partial, C103_bypass_inserts_swapped_refuted, C104_scenes_are_summed, C104_dry_output, C106_voices_have_their_own_lane, C106_quads_cover_voices, C98_scene_b_follows_scene_a_refuted, C98_control_step_unarmed, C97_playscene_inverted_refuted, C30_far_steps_panic, C31_number_text, C31_load_fields, C43_counter_counts_silence, C43_off_has_no_count, C57_modulate_modulators, C76_sign, C107_inconsistent_header_rejected, C107_unknown_format_tag_unsupported, C107_pcm_header, C107_float_header, C107_extensible_header, C107_ragged_alignment_accepted_refuted, C108_clm_chunk, C108_srge_chunk, C108_smpl_chunk_without_loop, C108_smpl_chunk_with_loop, C108_short_clm_panics_refuted, C01_type_ranges, C12_wrong_kind_is_reported, C12_too_wide_is_reported, C11_only_for_16_bit_integers, C04_writer_counters, C18_no_spacing, C123_every_quad_is_four_lanes, C126_dispatch_never_unwraps_none, C151_waveshape_index, C167_modes, C171_reads_are_of_shipped, C168_default_outside_refuted, C170_nil_reads_zero_refuted, C170_nil_where, C172_step_value, C175_short_delays_exact, C65_mpe_master_channel_bend, C28_pedal_release_uses_all_keys, C180_send_effect, C17_float_needs_32_bits, C86_shape_numbers, C189_shipped_refuted, C192_bend_shipped_refuted, C193_routes, C194_store, C194_first_voice_partial, C194_other_voices_refuted, C194_four_voices_refuted, C195_life, C196_gates_partial, C196_stale_refuted, C196_no_object_refuted, C196_toggle, C196_new_voice_refuted, C198_own_lane, C198_other_lanes, C198_lane_range, C198_round_trip, C198_shared_lane_refuted, C203_channels_refuted, C232_big_mul, C71_nan_never_greater, C50_eight_bit_refused, C48_too_many_cells, C196_own_switch, C198_sync_keeps, C253_fm_panics_refuted, C243_modes, C251_count, C273_dispatch_refuted, C255_saturator_of_subtype, C224_old_patch_defaults, C282_voice_filter_panics_refuted, C292_filter_runs_refuted, C293_integer_count, C294_frame_bound, C300_unison_refuted, C301_windows_refuted, C302_mipmap_follows_pitch_refuted, C303_largest_table_refuted, C303_step, C303_phase, C303_unison_of_wave_and_window, C305_reads_the_table_refuted, C305_conversion_refuted, C301_windows, C302_powers_of_two, C303_start, C303_start_silent, C303_cell, C303_wave_position.
* `ClassicalDedekindReals.sig_forall_dec`:
  C56_change_flag, C118_svf_run_is_out, C172_any_tap_refuted, C173_is_schroeder_allpass, C173_too_long_panics, C178_jumps, C87_step_value, C191_relative, C192_octave, C197_unchanged, C197_changed, C197_follows, C197_twin_refuted, C242_channels, C243_character_is_a_filter, C249_first_lanes, C251_no_unison_refuted, C251_single_voice, C242_mirror, C242_block_mirror, C242_mono_block, C293_voice_start.
* `ClassicalDedekindReals.sig_forall_dec`, `FunctionalExtensionality.functional_extensionality_dep`:
  C39_lag_converges_partial, C39_lag_closed_form, C39_vlag_converges, C39_lag_new_misses_target_refuted, C40_ramp_is_linear, C40_blocks_join, C40_instantize, C52_mid_side_lossless_partial, C41_ramp_partial, C41_ramp_restarts_refuted, C41_block_of_eight, C41_constant_gain, C41_smoothed_target, C42_trixpan_blocks, C42_pan_law, C53_softclip, C53_softclip_wide, C53_softclip2_refuted, C53_tanh_fast, C71_squaremax, C72_lerp_partial, C72_cubic, C73_noise_bounded, C73_noise_o2_bounded, C73_white, C74_fastsin_fastcos, C77_megapan, C47_allpass_recurrence, C47_allpass_conserves_energy, C47_allpass_never_amplifies, C55_unison_spread, C55_total_level, C56_target_round_trip, C56_target01_in_range, C56_no_overshoot_iff, C56_converges_without_overshoot, C56_convergence_rate, C56_unipolar_safe, C56_bipolar_overshoots_refuted, C56_until_close, C56_output_moves_without_change_refuted, C37_float_round_trip, C37_float_clamps, C37_force_integer, C37_normalise_inverse, C37_int_scale_refuted, C38_morph, C38_fallback, C79_modulation_round_trip, C78_extended_is_scaling, C34_no_scale_loads_refuted, C82_no_mapping_loads_refuted, C83_lookup, C83_monotone, C83_above_refuted, C83_fresh_tuner_refuted, C83_inverse_center_refuted, C85_db_exact_and_linear, C85_db_monotone, C85_db_outside_refuted, C85_clipscale, C85_rate_exact_and_linear, C85_rate_positive, C85_rate_outside_refuted, C85_waveshape, C85_sine_warp_negative_refuted, C85_uninitialised_refuted, C44_held_range_partial, C44_stages, C44_stuck, C44_trigger, C44_release_refuted, C86_phase_wrap, C86_frequency, C86_runaway_refuted, C86_waveform, C86_deform, C86_bounded, C86_output_ignored_refuted, C86_deform_type_refuted, C86_fresh_panics_refuted, C86_noise_memoryless_refuted, C87_advance, C87_loop, C87_flags_only_on_turns, C87_shuffle_refuted, C87_step_overflow_refuted, C87_glide, C87_no_glide, C88_key_trigger, C88_random_refuted, C88_freerun_refuted, C46_read, C46_delay_accuracy, C89_block, C46_in_bounds, C89_crossfeed_ignored_refuted, C89_dry, C89_wet, C89_modulation, C34_cents_line, C34_integer_line, C34_ratio_line_refuted, C82_default_reference, C83_clamped_lookup, C37_typed_set, C37_default_reads, C37_default_value, C37_switch_positions, C37_mismatch, C79_difference, C78_new_parameter, C104_muted_is_silent, C105_meter_bounds, C105_meter_decay, C105_meter_history, C39_first_value_snaps, C39_vlag_fresh, C40_first_ramp_is_flat, C40_next_ramp_continues, C47_default, C47_default_position, C56_fresh, C56_output01, C45_retrigger, C110_difference_equation, C110_first_samples, C110_block_is_samples, C110_stereo_is_two_monos, C110_variants_agree, C110_slowlag, C113_first_design_is_immediate, C113_later_design_glides, C113_registers_untouched, C113_resonance_range, C118_svf_linear, C119_converges, C119_no_overshoot, C119_first_block_refuted, C120_tanh_rcp_error, C121_digi_quantises, C121_digi_monotone, C121_digi_silence_refuted, C122_table_shapers_constant_refuted, C123_lanes_independent, C124_inactive_silent, C124_inactive_irrelevant, C125_ramps, C125_left_pan_overshoots_refuted, C127_bypass, C128_feedback_bounded, C129_load_lane, C129_no_clicks, C129_left_pan_clicks_refuted, C130_balance, C130_channel_pan_second_bus_refuted, C130_pan_levels, C132_silence_decays, C133_dc, C133_dc_converges, C133_first_sample_forgotten, C134_moog_bounded, C134_moog_stages, C135_hold, C135_rate, C135_above_sample_rate, C135_design, C136_delay, C136_delay_resolution, C136_step_ideal_partial, C136_run_ideal_partial, C136_memory_safe_partial, C136_inactive, C136_extract_refuted, C136_row_refuted, C137_low_pass, C137_too_long_panics, C137_reset, C138_downsample, C138_upsample, C139_never_adds_energy, C139_all_pass, C140_passes_dc, C140_stops_nyquist, C140_upsampling_halves_refuted, C141_new, C144_rates, C145_attack, C145_idle_recovery, C145_balance, C146_diode_curve, C146_ring_balanced, C147_carrier_frequency_quantised_refuted, C147_standing_carrier_refuted, C147_phase_stays_in_range, C148_output_stage, C148_no_clipping_refuted, C149_unison, C149_too_many, C150_shapes_bounded, C150_symmetry, C151_oversampled_loop, C151_memoryless, C152_output_is_not_decimated_refuted, C152_later_samples_inaudible_refuted, C152_writes_past_the_block_refuted, C153_reverb_is_feedback_delay_network, C153_reverb_runs_without_panic, C155_predelay_underflow_refuted, C155_no_run_survives, C160_full_damping_freezes_output, C161_long_predelay_wraps_refuted, C162_delay_reads_interpolated_past, C162_long_delays_wrap_refuted, C162_reachable, C163_soft_clip, C165_no_feedback, C166_sample_and_hold_unipolar_refuted, C170_round_trip, C173_lossless, C173_output_bounded, C175_delay_is, C175_unmodulated, C176_frozen_low_damper_refuted, C179_loop_time, C181_triangle_and_saw, C181_phases_and_hold, C181_long_phase, C181_comb_delays, C184_shapes, C87_fresh, C94_split_outside_range, C121_digi_overload_refuted, C132_glide, C134_glide, C134_rest, C136_variants, C155_predelay_length, C185_max_rate, C186_tail_is_the_effect, C187_is_the_effect, C189_glide, C189_constant_rate, C189_monotone, C189_legato_continuous, C190_source, C190_source_partial, C190_source_refuted, C190_unwanted_glide_refuted, C191_absolute_hz, C191_fraction_refuted, C191_zero_shift_refuted, C191_low_note_refuted, C192_pitch, C192_transpose, C192_bend, C192_keytrack, C192_keytrack_toggled_refuted, C192_oscillators, C192_keytrack_switch_refuted, C192_keytrack_off, C192_cutoff, C193_wide, C193_narrow_partial, C193_narrow_refuted, C193_levels_partial, C193_pfg_refuted, C193_noise_colour_refuted, C195_shipped_refuted, C196_modulators, C196_missing_refuted, C203_mix, C203_clamped, C203_second_half_unheard_refuted, C201_fade_time, C206_past_only, C206_line_bounded, C207_dry, C207_width, C209_past_only, C209_short_delays, C211_rows_refuted, C211_jump_refuted, C213_branches_all_pass, C214_huge_time_panics, C215_delay_refuted, C215_synced_refuted, C215_no_fraction_refuted, C222_uninitialised_starts_silent, C231_wiring, C231_debug_build, C130_two_bus_levels, C130_one_bus_level, C53_tanh7_single, C232_boundfreq, C41_set_at_once, C232_amp_to_linear, C232_bend, C138_upsample_too_long_panics, C110_stereo_block_flushes, C44_stage_times, C87_smooth_passes_through, C87_glide_passes_through, C193_level_law, C233_settings_in_range, C234_level_is_the_wave, C234_cycle_start_resets_level, C234_level_bounded, C235_periodic, C235_cycle_length, C237_mean_level_refuted, C237_no_offset_iff, C237_shapes, C238_block_ends_partial, C238_never_ends_refuted, C239_hard_sync, C240_every_impulse_heard_once, C240_impulse_place, C241_block_completes_partial, C242_output_bounded, C242_output_decays, C243_neutral, C243_bright_undoes_warm, C243_unity_dc, C243_bounded, C244_held_level, C244_in_order, C244_correlation, C245_two_levels_a_period, C245_lengths, C246_first_level_is_lost_refuted, C246_steady_after_first_block, C247_hard_sync, C247_restart, C248_block_ends, C249_impulse, C249_shape_is_garbage_refuted, C252_settings_in_range, C252_periods, C253_bounded, C253_leaks, C234_start_phase, C236_pitch_cap, C236_sync_cap, C236_unison_spread, C242_pan_mirror, C242_mono_place, C240_voice_lays_its_impulses, C244_start_phase, C249_impulse_place, C251_spread, C252_relative_period, C255_signal_path, C255_exists, C255_no_panic, C257_sine_bounded_refuted, C260_states_drain, C260_states_panic, C261_saturation, C261_glide, C262_polarity, C262_silence, C271_resonance, C270_passive, C270_clipped_passive, C270_glide_passive_refuted, C273_first_sample_refuted, C273_first_sample_lattice_refuted, C273_limiter, C273_clip, C274_polarity, C274_silence, C254_resonance, C255_glide, C261_cascade, C261_equilibrium, C262_output, C223_sum_of_bands, C227_modulator, C275_exact, C275_unique, C276_balance, C276_passive, C277_push, C277_no_push, C283_gains, C283_feedback_gain_refuted, C284_meant_loop, C284_loop_refuted, C285_superposition, C285_silence, C178_step, C176_gains, C287_coefficients, C288_stage, C288_lowpass, C288_highpass, C289_lowpass, C289_highpass, C289_silence, C290_lowpass, C290_highpass, C293_creation_refuted, C293_single_frame_start_refuted, C294_start, C294_update, C294_follows_the_knob_refuted, C294_level, C294_single_frame_refuted, C294_move_down_at_block_start_refuted, C295_only_the_sign_refuted, C295_distortion, C295_odd, C295_skew_increasing, C296_level, C296_one_level_refuted, C298_panning_refuted, C298_hard_right_is_silent_refuted, C298_mono, C295_settings, C294_start_at_rest, C294_glide, C301_frame, C301_increasing, C304_frequency, C304_formant, C304_no_formant, C301_longer_wave_table_refuted.
* `ClassicalDedekindReals.sig_forall_dec`, `ClassicalDedekindReals.sig_not_dec`, `FunctionalExtensionality.functional_extensionality_dep`:
  C73_drift_bounded, C73_drift_is_memoryless_refuted, C74_clamp_to_pi, C75_windows, C75_window_ends, C83_omega, C45_envelope_refuted, C45_range_partial, C45_stage_order_partial, C45_attack_partial, C45_decay_partial, C45_quadratic_decay_refuted, C45_release_partial, C84_range_partial, C84_hold_partial, C84_exceeds_one_refuted, C84_release_partial, C85_sine_warp, C90_rows, C90_interpolation, C90_delay_line, C93_windows, C93_symmetric_blackman, C93_symmetric_blackman_harris_refuted, C45_fresh, C45_unknown_attack_shape_panics, C109_bounded_input_bounded_output, C109_silence_decays, C109_glide_stays_in_triangle, C109_above_nyquist, C109_unguarded_above_nyquist_blows_up_refuted, C111_lowpass, C111_highpass, C111_bandpass, C111_peak, C111_notch, C111_allpass, C111_lowpass2b, C113_omega, C114_morph_ignored_refuted, C116_phase_history, C116_phase_from_default, C116_n_steps, C116_process_before_rate_refuted, C117_svf_coeff_frame, C131_svf_cutoff_monotone, C132_two_pole_bounded, C132_four_pole_bounded, C142_window_maximum, C143_lookahead_sees_one_sample_in_128_refuted, C143_peaks_pass_unlimited_refuted, C144_delays_128_and_never_amplifies, C144_uninitialised_refuted, C145_sustained_peak_is_limited, C148_full_scale_flips_refuted, C148_silence, C148_stereo_lost_refuted, C148_dry_is_coloured_refuted, C149_gain_scale, C150_shape4, C154_reverb_tail_dies_out, C154_reverb_tail_never_grows, C156_pans, C163_output_within_full_scale, C167_comb_weights, C167_other_voice_counts, C164_block_keeps_state_bounded, C165_flanger_never_explodes, C166_lfo_range, C166_sine_table_edge_refuted, C166_reachable, C176_tail_passive, C182_block, C184_sample, C116_set_rate_normalises, C116_default_starts_at_zero, C185_slow_rates, C185_period, C185_fast_phase_refuted, C185_only_control_refuted, C186_energy, C186_never_louder, C186_tail, C187_bounded, C188_full_mix, C187_constant_settings, C188_mono, C188_right_ignores_left, C199_sound, C199_legacy_sound, C199_legacy_shapes_refuted, C199_legacy_shapes, C199_frequency, C199_bounded, C204_shipped_sine_refuted, C204_shipped_fm_refuted, C204_shipped_fm2_refuted, C204_without_fm, C200_feedback_refuted, C200_first_samples, C201_sound, C201_bounded, C202_sound, C202_bounded, C205_pan, C205_outer_pans, C205_delay_range, C205_three_voices_refuted, C205_rate_sync_refuted, C206_blocks, C206_stable, C207_output, C208_distance, C208_level, C213_shifts, C213_upwards, C213_downwards, C213_no_shift, C214_safe, C217_lock, C217_opposite_refuted, C216_squared_refuted, C216_sign_refuted, C216_one, C218_suspend_silences, C218_starts_silent, C223_tuned_gain, C223_below_tuning, C111_by_bandwidth, C111_notch_resonance_limited, C213_shift_in_hertz, C205_delay_targets, C207_filters_follow, C187_feedback_follows, C185_starts_in_the_middle, C199_restarts, C204_legacy_fm, C204_fm_depth, C250_drift_forgets_refuted, C250_drift_is_tiny, C250_drift_formula, C254_design, C254_centre, C254_allpass, C261_coefficients, C264_glide, C264_pass, C267_lattice, C267_coupled, C268_cookbook_centre, C268_cutoff_refuted, C269_stable_below, C269_stability_refuted, C272_bandpass_refuted, C270_coupled_bounded, C264_output, C264_tuning, C278_modes, C278_constant, C280_poles, C280_24dB_is_a_sum_refuted, C283_tuning, C287_tuning, C297_impulses, C299_cycle, C299_forward, C299_impulse, C297_block_boundary, C297_over_blocks.
* `ClassicalDedekindReals.sig_forall_dec`, `ClassicalDedekindReals.sig_not_dec`, `Classical_Prop.classic`, `FunctionalExtensionality.functional_extensionality_dep`:
  C33_no_shuffle_panics_refuted, C33_advance_partial, C33_loop_outside_pattern_panics_refuted, C66_masked_step_not_skipped_refuted, C66_jumps_go_to_unmasked_steps_partial, C67_loop_left_with_empty_mask_refuted, C67_loop_kept_with_full_mask_partial, C67_loop_stuck_on_first_step_refuted, C68_probability_of_trigger, C68_bad_probability_panics_refuted, C69_mutation_changes_nothing_or_lands_in_unit, C69_swing, C52_mid_side_lossless_f32, C52_mid_side_f32_refuted, C53_hardclip, C53_limit_range, C53_clamps, C53_hardclip8_sd_refuted, C53_hardclip8_range, C53_softclip_f32, C53_tanh7_bounded, C54_i15_roundtrip, C54_i15_exact, C54_float_to_i15, C54_int7, C72_lerp_endpoint_refuted, C74_fasttanh, C74_fastexp, C51_set_matches_new, C51_ms_follows_rate, C51_oversampled_rate_updates_refuted, C55_unison_spread_f32, C36_new_in_range, C36_history_in_range, C36_float_never_fails, C36_temposync_nan_refuted, C36_bool_panics_refuted, C37_float_reads_unit, C37_float_monotone, C37_int_stuck_refuted, C38_ends_f32, C38_between_f32_refuted, C36_int_never_fails, C81_always_dotted_refuted, C81_above_whole, C35_retune_linear, C35_period, C35_retune_keyed, C35_unmapped_sound_refuted, C35_invalid_scale, C34_loaded_scale_refused_refuted, C82_tune_a69_refuted, C82_remap_standard, C82_remap_standard_keeps_scale, C83_octave, C83_below_refuted, C83_tuning_center, C90_kernel, C90_i16_refuted, C82_remap_reference, C82_new_tuner, C82_reset_keeps_pitch_refuted, C83_clamped_below_refuted, C94_snaps_to_a_division, C94_divisions_stay, C94_monotone, C94_nearest_refuted, C104_output_is_bounded, C32_fresh, C32_default, C69_swing_amount, C84_coefficient, C111_peak_eq, C112_sine_response, C115_update_ratios, C115_handle_tempo_refuted, C115_fresh_unit, C117_svf_stable, C118_svf_centre_gain, C118_svf_blocks_dc, C120_range, C120_tanh_curve, C120_tanh_huge_negative_refuted, C122_table_shapers_level, C131_svf_coefficients, C134_moog_coefficients, C135_bounded_f32, C155_first_sample_panics, C156_delays_fit_the_buffers, C156_loop_gains, C156_initialised_reverb_tail_dies_out, C157_decay_rate, C158_room_zero_never_decays_refuted, C159_settings_reach_the_network, C159_next_block, C159_init_tracked, C168_in_range, C168_mixed_kinds_refuted, C168_ringmod_stuck_refuted, C168_ringmod_reads_refuted, C169_int_parameters_stuck_refuted, C171_typed_reads_refuted, C172_predelay_panics_refuted, C172_silent_until_then, C174_lengths_fit, C174_high_rate_refuted, C175_long_delay_refuted, C175_fits, C176_sizes_meet_it, C177_superposition, C177_mono_input, C178_second_block_refuted, C179_minus_60_dB, C179_factor_below_1, C179_monotone, C181_sine, C183_sine_cosine, C183_sine_cosine_reduced, C183_exponential, C183_tanh, C183_tangent, C184_carrier, C83_standard_inverse, C156_initial_pans, C159_preset_change_clears, C185_standard_tuning_pitched, C185_fast_panics_refuted, C189_legato_at_end_refuted, C199_concert_pitch, C199_octave, C200_feedback_vanishes_refuted, C201_fades_refuted, C202_starts_near_zero, C202_fades_refuted, C208_turns, C208_rate, C208_level_attained, C208_tempo_sync_refuted, C209_blocks, C210_bass, C210_bass_speed_refuted, C212_suspend_loses_bass_refuted, C212_return_level_refuted, C212_init_tunes, C220_response, C220_no_fade_in_refuted, C219_flat_is_gain, C219_straight_wire, C219_gain_approach, C221_every_eighth_block, C221_return_level_refuted, C222_suspend_is_fresh, C223_band_response, C224_placement, C224_too_many_bands, C224_old_patch_panics_refuted, C225_stable_in_range, C225_init_succeeds, C226_bounded, C227_linear_in_carrier, C227_side_chain_polarity, C229_silent_side_chain, C229_gate_never_opens_refuted, C228_every_64th_block, C228_unused_refuted, C230_suspend_clears_nothing_refuted, C230_suspend_is_nothing_refuted, C184_carrier_any_shape, C109_allpass_out_of_range, C209_hears_the_average, C233_speed_and_leak, C236_plays_its_note_refuted, C236_absolute_plays_its_note, C238_sync_40_hangs_refuted, C239_master_period_refuted, C253_gain_below_one, C242_leak_per_cycle, C242_leak_cap, C253_leak_per_cycle, C254_coefficients, C254_makeup, C255_saturators, C256_bounded, C258_ojd_no_feedback_refuted, C258_ojd_silence_refuted, C259_polarity, C259_silence, C260_states_filter_refuted, C262_bounded, C263_fourth_order_refuted, C264_coefficients, C264_cleared, C265_bounded, C265_no_overshoot, C266_polarity, C266_silence, C279_chain, C279_tuning_glide_refuted, C281_no_overshoot, C281_tuning_range, C281_polarity, C281_silence, C281_inactive, C286_click_explodes_refuted, C287_usable, C291_lowpass, C291_highpass, C299_plays_its_note_refuted.
