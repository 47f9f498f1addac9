# Formal model of klebs6/surge-rs in Rocq (Coq 8.16.1)

This file is generated by `tools/gen_design.py` from `tools/design_head.md`, `tools/methods.json`,
`properties.jsonl`, `MANIFEST.json` and `tools/assumptions.json`.

## Layout

* `properties.jsonl` - the semantic properties (generated by `tools/gen_properties.py`).
* `rocq/theories/Base.v`, `Util.v`, `F32.v` - outcome monad (`Ok`/`Err`/`Panic`), machine-integer
  helpers, binary32.
* `rocq/theories/<Area>Model.v` - the model; one definition per Rust function, each with a comment
  `(* file:lines *)`. No proofs there.
* `rocq/theories/<Area>Spec.v` - small, model-independent specification vocabulary. In the smaller
  areas the specification (two or three definitions) stands in the Props file right above the theorem.
* `rocq/theories/<Area>Proofs.v` - lemmas.
* `rocq/theories/<Area>Props*.v` - the property theorems, named after the property (`C42_...`), each
  with `Print Assumptions` and, where it has hypotheses, a non-vacuity `Example`.
* `MANIFEST.json` - property -> theorem map; `seeded/LOG.jsonl` - mutation log;
  `tools/` - generators and the mutation driver (`mutate.py`, `genmuts.py`, `mklog.py`).

A theorem whose name ends in `_refuted` shows that the code violates the property: it describes the
wrong behaviour for all states in which it occurs, not only a witness. `_partial` marks a proved part
of a property. A property with such a theorem is `partial` in the manifest; its note says what is
missing or what is wrong.

## Conventions of the model

* **Integers** are `Z` with explicit ranges; `u32`, `usize`, ... arithmetic is *checked* (overflow =
  `Panic`, the debug profile) wherever it can matter; theorems carry range hypotheses that exclude
  overflow, so they also hold for the wrapping release profile. `as` casts truncate or saturate as in Rust.
* **Panics** (`unwrap` on None, index out of bounds, `assert!`, `todo!()`, `unreachable!`, empty
  `gen_range`) are the explicit outcome `Panic`; `Result::Err` is `Err e`. Undefined behaviour through
  raw pointers (accesses outside an allocation) is shown as `Panic` where the buffer has bounds in the
  model, and as a visible write to the neighbouring cells where memory is a total map.
* **State**: `&mut self` methods return the new state; `Rc<RefCell<..>>` handles are the values they
  point to, with sharing modelled where the owners are.
* **Streams**: a `Read+Write+Seek` stream is a byte list with a position (the contract of
  `io::Cursor<Vec<u8>>` and of regular files). Other I/O errors are not modelled.
* **Floats**: samples in the WAV and wavetable code are 32-bit patterns. Where rounding, NaN or
  infinities matter, f32/f64 are Flocq's `binary_float` (`F32.v`, computable, round to nearest even).
  Where the property is about the algorithm, arithmetic is over exact reals (each comment says so).
  Several models are written once over an arithmetic record (`arith`, `numops`, `vops`) and read with
  both. libm functions (`powf`, `log2`, `exp`, ...) are universally quantified functions in binary32
  models and the real functions in real models. `_mm_rcp_ps`/`_mm_rsqrt_ps` are arbitrary functions
  (with a stated error bound only where a theorem needs one).
* **Memory** of the SSE block routines is a total map from f32 cells to values, so what a call touches
  is the set of changed addresses; alignment is `address mod 4 = 0` where a fault is modelled.
* **Randomness**: each draw is an explicit argument ranging over everything the generator may return.
* **Unwritten callees**: where the code calls something that is `todo!()`, the theorem about the code as
  shipped says `Panic`; where a further theorem says what happens once it is written, the callee is an
  argument (for instance `get_output` of the envelope).
* **Plug-in points**: filters and waveshapers in the quad chain and the delay, effects in the audio
  engine, and what a scene renders are arbitrary functions: the theorems hold for every behaviour.
* **Quads**: four-lane SSE code is modelled lane-wise when every operation is lane-wise, and with all
  four lanes where lanes meet (packing, horizontal sums, the quad filter chain).

## Modelled and not modelled

Modelled (crate: what): surge-hound: reader, writer, appending, 16-bit writer, chunk parsing incl.
Surge chunks. surge-midi, surge-mpe: hold pedal, channel state. surge-scene: voice management, poly
modes, solo, set_parameter. surge-synthesizer: controller dispatch, RPN/NRPN, routing, the audio
block, halting, sends, master clip. surge-input/-output: buffers. surge-stepseq. surge-lag,
surge-lipol. surge-math: block operations, clipping, conversions, small helpers. surge-param:
values, bounds, modulation depth, normalised access, names. surge-tuning: Scala readers, retuning,
keyboard mapping, tables. surge-adsr, surge-lfo, surge-tables (incl. sinc, windows).
surgefx-dualdelay. surgefx-allpass (circular buffer), effect ring-out. surge-wavetable.
surge-modulation. unison of surge-oscillator. surge-samplerate. surge-biquad, surge-svf,
surge-quadrosc, surge-timeunit, surge-coeffmaker. surgeshaper-*. surge-qfunit and the voice code that
loads it. surgefilter-svf, -moog, -snh, -comb. surge-halfrate. surgefx-conditioner (limiter), surgefx-ringmod (core), surgefx-distortion (core). surgefx-reverb (network, presets, control). surgefx-flanger. surgefx-allpass ("reverb2", up to the wet signal). surgefx-phaser. surge-voice, surgeosc-audioin, surgefx-chorus, surgefx-rotary, surgefx-freqshift, surgefx-eq3band, surgefx-vocoder with surge-svf, surgeosc-super and surgeosc-snh (without FM), surgeosc-sine, surgeosc-fm, surgeosc-fm2 (portamento, pitch, mixer, block loop, filter hand-over; see C189-C198). All 29 parameter tables and all typed parameter reads (ShipModel.v). Further areas are listed in the property table below., surgefilter-nlfeedback, surgefilter-nlstates, surgefilter-rungekutta, surgefilter-huovilainen, surgefilter-iir (without the wave digital form)

surgefilter-obxd. surgefilter-diode. surgefilter-k35 (coefficients, and the uncompiled processing text). surgeosc-wavetable (tables not flagged as samples, no FM), surgeosc-window (choices, increments, phase, addresses, block conversion; no FM, no sinc products).

Not modelled: GUI and plug-in wrappers, text formatting of parameters, XML patches, the arithmetic of
most surgefx-*, surgefilter-* and surgeosc-* crates (beyond what the table lists), SIMD flags
(denormals, rounding mode), threads (the code is single-threaded through `Rc`), timing, allocation
failure. The correspondence between the Gallina model and the Rust text is by reading only; the code
is never compiled or run here.

## Trusted base

The Coq 8.16.1 kernel (with `vm_compute`), the reading of the Rust text into the model, and the axioms
listed at the end of this file. There are no axioms of our own, no functors, no module types. Flocq and Coquelicot are
used as libraries only; the axioms that appear come from Coq's standard library (classical reals and
functional extensionality).

