#!/usr/bin/env python3
"""Writes ../properties.jsonl (one JSON object per line)."""
import json, os
P=[]
def p(title, statement, quantifier, why, *anchors):
    P.append(dict(id="C%02d"%(len(P)+1), title=title, statement=statement, quantifier=quantifier,
                  why_tests_cant=why, anchors=list(anchors)))
H="surge-hound/src/"
# ---------------------------------------------------------------- WAV codec
p("Sample values survive the byte codec",
  "Writing an integer sample v (as i8, i16 or i32) at 8, 16, 24 or 32 bits and reading it back at the same width into any integer type that is at least as wide as the stored width yields exactly v; a float sample comes back with the identical 32-bit pattern (NaN payloads and -0 included). The write produces exactly bits/8 bytes.",
  "every sample type, every value of the type that fits the width, every supported width, every reader type wide enough",
  "2^32 values times widths times types; sign extension and the unsigned 8-bit offset fail on isolated values",
  H+"lib.rs: impl Sample for i8/i16/i32/f32, signed_from_u8, u8_from_signed", H+"write.rs: WriteExt::write_le_*", H+"read.rs: ReadExt::read_le_*")
p("Out-of-range samples are rejected exactly, with no effect",
  "write_sample returns Error::TooWide if and only if the value does not fit the signed range of the writer's bit depth; on error nothing is written, the stream position and len() are unchanged, and writing may continue as though the call had not been made.",
  "every sample type, every value, every supported bit depth, every writer state",
  "the boundary must be exact at both ends for each width, for all 2^32 values, and the no-effect clause ranges over all writer states",
  H+"lib.rs: narrow_to_i8, narrow_to_i16, narrow_to_i24, Sample::write", H+"write.rs: WavWriter::write_sample")
p("The spec written is the spec read back",
  "For every spec that WavWriter::new accepts without panicking or failing and that has at least one channel, the produced header parses with WavReader::new to exactly that spec (channels, sample rate, bits, sample format) and to container size bits/8.",
  "every channel count, sample rate, bit depth and sample format",
  "channels x rates x depths is about 2^50 specs; redundant header fields must be mutually consistent for all of them",
  H+"write.rs: WavWriter::new, write_headers, write_waveformat, write_pcmwaveformat, write_waveformatextensible", H+"read.rs: read_fmt_chunk, read_wave_format_*")
p("Write then finalize then read returns the same samples",
  "Creating a writer on an empty stream, writing any sequence of in-range samples forming whole frames and finalizing yields a stream on which WavReader::new succeeds, spec() is the original spec, len() is the number of samples written, and the sample iterator yields exactly the written samples in order and then None.",
  "every accepted spec and every finite sample sequence whose length is a multiple of the channel count and whose bytes fit a 32-bit WAV",
  "unbounded sequence length and all specs/values",
  H+"write.rs: WavWriter::{new,write_sample,finalize,update_header}", H+"read.rs: WavReader::{new,samples}, iter_next")
p("Finalized files have consistent RIFF sizes",
  "After finalize, the RIFF size field equals the total byte length minus 8, the data chunk length equals the number of sample bytes, the data chunk is the last chunk, and no byte of sample data was changed by the header update.",
  "every accepted spec and every sample sequence, including ones that end mid-frame",
  "sizes depend on the whole history of writes; off-by-header errors only show for particular header kinds",
  H+"write.rs: WavWriter::update_header, finalize")
p("Dropping a writer leaves the same bytes as finalizing it",
  "If a WavWriter is dropped without finalize, the stream contents are byte-for-byte those that finalize would have left, whatever was written before, including mid-frame.",
  "every reachable writer state",
  "drop may happen after any history of writes and flushes (crash point)",
  H+"write.rs: impl Drop for WavWriter, finalize, update_header")
p("flush is a transparent checkpoint",
  "After a flush at a whole-frame boundary the stream is a readable WAV holding exactly the samples written so far; and the bytes finally produced are the same as if no flush had ever been called, whatever the number and placement of flushes.",
  "every interleaving of write_sample and flush calls at frame boundaries",
  "all interleavings of writes and flushes; the damage appears only for certain placements",
  H+"write.rs: WavWriter::flush, update_header")
p("flush in the middle of a frame loses nothing",
  "flush documents that when the number of samples is not a multiple of the channel count it still writes the file and merely returns UnfinishedSample; so samples written afterwards must follow the earlier ones and the final file must contain every sample in order.",
  "every history that contains a flush mid-frame",
  "ranges over all placements of flush in all histories",
  H+"write.rs: WavWriter::flush (early return of update_header error)")
p("Appending equals concatenation",
  "Opening a finalized file with new_append, writing more whole frames and finalizing yields a file byte-identical to the one produced by writing all samples in one session; this holds for any number of append sessions, and append never alters earlier sample bytes.",
  "every spec, every split of every sample sequence into append sessions",
  "unbounded number of sessions and split points",
  H+"write.rs: read_append, WavWriter::new_append")
p("File append through a buffered reader starts at the right byte",
  "WavWriter::append(filename), which parses the header through an 8 KiB BufReader before seeking, positions the writer exactly where new_append on the same bytes does: at the end of the data chunk, independent of read-ahead.",
  "every file content, every buffer capacity and read-ahead state",
  "the error would depend on file length relative to buffer fill",
  H+"write.rs: WavWriter::append, read_append")
p("The 16-bit block writer is equivalent to write_sample",
  "For 16-bit integer specs, get_i16_writer(n), n samples, flush produces exactly the bytes and len() that n calls of write_sample produce for in-range samples, and keeps only the low 16 bits otherwise; writing more than n or flushing early panics instead of corrupting the file.",
  "every n, every sample sequence, every recycled-buffer state",
  "recycled buffer contents and n range over everything; garbage bytes only show if some index is missed",
  H+"write.rs: get_i16_writer, SampleWriter16::{write_sample,flush}")
p("The reader yields exactly len() items, then None",
  "From any opened reader, the sample iterator yields exactly len() items (Ok or Err) and then None forever; at every point its reported exact size equals the number of items still to come; len() = duration() * channels.",
  "every byte string WavReader::new accepts, every sample type, every prefix of iteration",
  "arbitrary input files and sample types",
  H+"read.rs: iter_next, iter_size_hint, len, duration")
p("Truncated data never fabricates samples",
  "If the stream ends before the declared data length, iteration yields exactly the complete samples present in order, and every later item is an I/O error; no item is invented and no panic occurs.",
  "every well-formed file and every truncation point inside the data chunk",
  "all truncation points (crash points) of all files",
  H+"read.rs: read_into, iter_next")
p("Opening arbitrary bytes never panics",
  "WavReader::new returns Ok or Err for every byte string; in particular a data chunk without a preceding fmt chunk is reported as FormatError(\"missing fmt chunk\") rather than crashing the host.",
  "every finite byte string",
  "adversarial input space",
  H+"read.rs: read_until_data, read_clm_chunk, read_srge_chunk, read_srgo_chunk, read_cue_chunk, read_smpl_chunk, WavReader::new")
p("Unknown chunks are invisible",
  "Inserting any number of well-formed chunks of unknown kind before the data chunk does not change the spec, the length or the decoded samples.",
  "every list of unknown chunks (any 4-byte tag that is not recognised, any payload)",
  "unbounded chunk lists and payloads",
  H+"read.rs: read_until_data, skip_bytes, read_chunk_header")
p("Seeking is consistent with sequential reading",
  "For t <= duration(), seek(t) from any read position makes the iterator yield exactly the samples from frame t on, as though t*channels samples had been read from the start; seek does not alter data.",
  "every readable file, every start position, every t <= duration",
  "all start/target pairs for all files",
  H+"read.rs: WavReader::seek, iter_next")
p("Unsupported bit depths are refused without side effects",
  "WavWriter::new with a bit depth other than 8, 16, 24, 32 returns Err(Unsupported), does not panic and leaves the given stream's bytes untouched.",
  "every spec with an unsupported bit depth, every initial stream content",
  "65532 depths and arbitrary stream contents",
  H+"write.rs: WavWriter::new, Drop")
p("Cue chunk gives the common spacing of regular cues only",
  "Reading a cue chunk with evenly spaced cue positions reports exactly that spacing as the wavetable frame length; unevenly spaced cues are rejected.",
  "every list of cue points",
  "all list lengths and spacings; sentinel values collide only for particular spacings",
  H+"read.rs: read_cue_chunk")
# ---------------------------------------------------------------- MIDI / synth
p("A note released under the hold pedal sounds until the pedal is lifted, then is released exactly once",
  "With the pedal down on a channel, released notes are held; when the pedals covering a note are up, purging the buffer releases every such note exactly once in order, keeps all notes still covered by a pedal in order, and nothing else is released.",
  "every sequence of pedal changes, note releases and purges on all 16 channels",
  "unbounded event histories over 16 channels",
  "surge-midi/src/hold_pedal.rs: HoldPedalUnit", "surge-scene/src/scene/release.rs")
p("Re-striking a held key does not crash the synth",
  "Playing a key again while its earlier release is still held by the pedal, and later lifting the pedal, releases remaining held notes normally; no event order panics.",
  "every interleaving of note-on, note-off and pedal events",
  "the failure needs a specific interleaving",
  "surge-midi/src/hold_pedal.rs: reset, purge", "surge-scene/src/scene/play.rs")
p("NRPN selection uses both selector bytes",
  "After CC 99 = m and CC 98 = l on a channel, a following data entry addresses NRPN (m,l) and no other, just as CC 101/100 do for RPNs.",
  "all m, l in 0..127 and all channels",
  "the whole selector space times previous selector states",
  "surge-synthesizer/src/synth/channel_controller_cc.rs")
p("RPN data entry decodes pitch-bend range and MPE configuration only",
  "RPN (0,0) sets the pitch-bend range, RPN (0,6) on channel 0/15 configures MPE, every other RPN leaves both unchanged.",
  "all RPN numbers, data values, channels and prior states",
  "2^14 RPN numbers x values x states",
  "surge-synthesizer/src/synth/channel_controller_rpn.rs")
p("Channel state is isolated",
  "Setting a controller, pitch bend, RPN/NRPN selector or hold pedal value on one MIDI channel never changes the value read for a different channel or a different controller; the value read back is the last one set.",
  "every sequence of sets and gets on 16 channels x 128 controllers",
  "unbounded histories",
  "surge-midi/src/handle.rs: MIDIUnitHandle", "surge-midi/src/channel.rs")
p("Notes are routed to the scenes the scene mode prescribes",
  "For any channel and key the computed scene mask is: Single - the active scene; Dual - both; KeySplit - lower scene below the split key, upper otherwise; ChannelSplit - lower scene for channels up to the split channel, upper otherwise; MIDI channels 2 and 3 force scene A and B; never empty and never panicking.",
  "every scene mode, split point, channel and key",
  "mode x split x channel x key combinations",
  "surge-synthesizer/src/synth/channel_mask.rs: calculate_channel_mask")
p("All-notes-off silences the instrument",
  "all_notes_off / freeing a scene's voices ends every voice without panicking, whatever voices are sounding.",
  "every number and arrangement of sounding voices",
  "removal while iterating fails only for two or more voices",
  "surge-scene/src/scene/drop.rs", "surge-scene/src/scene/release.rs")
p("The polyphony limit is enforced",
  "Enforcing a polyphony limit with a margin does nothing while the voice count is at most limit + margin; otherwise it removes softkilled (uber-released) voices only, no more than needed, never a voice that is still playing, and never panics.",
  "every voice list, limit and margin",
  "list lengths unbounded; index shifting is history dependent",
  "surge-scene/src/scene/polyphony.rs: enforce_polyphony_limit")
p("Voice stealing picks the oldest released voice first",
  "softkill chooses a voice that is in release and not already being killed and has the greatest age in release; only if there is none does it choose the oldest playing voice; it never chooses a voice already being uber-released and changes at most one voice.",
  "every voice list with any ages and gates",
  "unbounded voice lists and ages",
  "surge-scene/src/scene/softkill_voice.rs")
p("Mono mode falls back to the highest key still held",
  "Releasing the sounding key in monophonic mode while other keys of the zone are held moves to the highest held key; if none is held the voice is released; keys outside the zone are never chosen.",
  "every key-state array and key range",
  "2^128 key states",
  "surge-scene/src/scene/release_monophonic.rs", "surge-scene/src/scene/release_single_triggered.rs")
p("Channel solo is exclusive when requested",
  "Soloing a mixer channel exclusively leaves exactly that channel soloed; non-exclusive toggling affects no other channel.",
  "every prior solo state and channel",
  "all states",
  "surge-scene/src/scene/set.rs", "surge-voice/src/toggle_solo.rs")
# ---------------------------------------------------------------- step sequencer
p("Step mute flags behave as a set",
  "After any history of mute/unmute of single steps, groups and all, is_step_muted(i) says exactly whether i is in the set obtained by the same set operations (add, remove, union, difference, {0..15}, empty); nothing else of the sequencer changes.",
  "every operation history on every step",
  "unbounded histories",
  "surge-stepseq/src/mute.rs")
p("Step sequencer state survives save and load",
  "Loading what was saved restores the steps, loop points, shuffle and trigger mask exactly and keeps everything else of the target; loading any other text never panics and keeps the sixteen-step shape.",
  "every sequencer state; every text",
  "all states and all texts",
  "surge-stepseq/src/persist.rs")
p("Step access is bounds-checked and local",
  "Setting step or probability i changes only i and only for i in range; out of range changes nothing and reads as 0.",
  "every index and value",
  "all indices and prior states",
  "surge-stepseq/src/stepsequencer.rs", "surge-stepseq/src/probability.rs")
p("Advancing the sequencer is total and stays inside the pattern",
  "Advancing never panics, returns the current step, and leaves the position within the sixteen steps, for every shuffle amount, loop setting and random draw.",
  "every sequencer state",
  "all states incl. shuffle = 0",
  "surge-stepseq/src/next.rs")
# ---------------------------------------------------------------- tuning
p("A well-formed Scala scale can be loaded",
  "Every text in Scala .scl format (comment lines, description, count, that many tones) loads to a scale with those tones; malformed text is an error, not a panic.",
  "every text",
  "all texts",
  "surge-tuning/src/scale.rs: Scale::from", "surge-tuning/src/keyboard_mapping.rs")
p("Retuned pitch tables repeat at the scale's period",
  "After retuning to a valid scale of n tones, the pitch n keys higher is exactly one scale period higher, the reference key is unchanged, and lookup by any note number stays inside the table.",
  "every scale (any n, any tones) and every key",
  "unbounded scales; truncating vs flooring division differs only below the reference key",
  "surge-tuning/src/retune.rs", "surge-tuning/src/tuner.rs", "surge-tuning/src/handle.rs")
# ---------------------------------------------------------------- params
p("A parameter's value is always within its declared range",
  "After construction and after any sequence of set operations a parameter's value lies between its minimum and maximum.",
  "every parameter descriptor, every sequence of sets (incl. NaN and infinities)",
  "all float inputs incl. NaN, unbounded histories",
  "surge-param/src/bound_value.rs", "surge-param/src/limit_range.rs", "surge-param/src/set_value.rs")
p("Setting a parameter from a normalised value takes effect",
  "set_value_f01(v) followed by get_value_f01 returns v (exactly for float parameters, to the nearest representable step for integer parameters), for float, int and bool parameters, without panicking.",
  "every parameter descriptor and every v in [0,1]",
  "all descriptors and inputs",
  "surge-param/src/set_value.rs", "surge-param/src/get_value.rs", "surge-param/src/normalize.rs")
p("Morphing between two parameters stays between them",
  "Morphing with weight x in [0,1] gives a at 0, b at 1 and always a value between a and b; incompatible pairs choose one end.",
  "every pair of parameters and every weight",
  "all values",
  "surge-param/src/morph.rs")
# ---------------------------------------------------------------- DSP control
p("A smoothed (lagged) value converges to its target",
  "After setting a target, repeated processing moves the value monotonically towards the target and converges to it, never overshooting, for every lag rate in (0,1] however the lag was constructed.",
  "every rate, start value, target and number of steps",
  "limit over unbounded steps",
  "surge-lag/src/lag.rs", "surge-lag/src/vlag.rs")
p("A block-linear ramp ends exactly on the target",
  "After new_value, processing one block of samples moves linearly from the previous value to the target and reaches it at block end, without overshoot.",
  "every block size, start and target",
  "all sizes and values",
  "surge-lipol/src/lipol.rs")
p("The SIMD ramp used for gains is continuous over the whole block",
  "multiply/mac/fade/add blocks apply to sample k the linearly interpolated gain current + (k+1)/blocksize*(target-current), for all k in the block.",
  "every even block length in quads, every current/target gain, every buffer",
  "all lengths; single-quad tests do not see the second iteration",
  "surge-lipol/src/sse_block.rs", "surge-lipol/src/lipol_ps.rs", "surge-lipol/src/multiply.rs")
p("Triangular panning preserves the channel sum",
  "Pan 0 is the identity, pan +1/-1 moves one channel fully into the other, and for every pan value out_left + out_right = in_left + in_right, for every sample of the block.",
  "every pan, every block",
  "all values, all samples of a block",
  "surge-lipol/src/trixpan.rs")
p("An effect's tail rings out after input stops",
  "When the input becomes silent, an effect with ringout length n keeps being processed for exactly n further blocks, is then suspended, and restarts at once when input returns; an effect declared always-on is always processed.",
  "every history of input-present flags and every ringout setting",
  "unbounded histories",
  "surge-traits/src/ringout.rs", "surge-macros/src/lib.rs")
p("The LFO envelope stays within [0,1]",
  "In every stage (delay, attack, hold, decay, release, stuck) the LFO's envelope multiplier stays between 0 and 1 and the release stage starts from the current level and falls to 0.",
  "every stage history, rates and phases",
  "unbounded histories",
  "surge-lfo/src/update_envelope.rs")
p("The amplitude envelope follows attack, decay, sustain, release and ends idle",
  "The digital envelope's phase stays in [0,1] until it goes idle; stages occur only in the documented order; decay settles exactly on sustain; release always reaches idle after finitely many blocks.",
  "every rate setting and every number of blocks",
  "termination and invariants over unbounded block counts",
  "surge-adsr/src/process_block_digital.rs", "surge-adsr/src/digital_attack.rs", "surge-adsr/src/digital_decay.rs", "surge-adsr/src/digital_release.rs", "surge-adsr/src/release.rs")
p("The delay line returns the sample written the requested time ago",
  "Reading the dual delay at delay time d returns the interpolation window of the samples written d samples earlier, for every position of the write pointer; no buffer access is out of bounds.",
  "every write position, delay time and block history",
  "2^18 write positions, wrap-around, unbounded histories",
  "surgefx-dualdelay/src/block.rs", "surgefx-dualdelay/src/set_buffer.rs", "surgefx-dualdelay/src/update.rs")
p("The allpass delay has exact length N and unit energy structure",
  "The allpass filter's output of length N and coefficient a obeys y[n] = a x[n] + x[n-N] - a y[n-N] for every input history from silence, whatever N >= 1 and starting position, and conserves energy (so for |a| <= 1 it never puts out more energy than it was given).",
  "every N, coefficient and input history",
  "unbounded histories and N",
  "surge-math/src/allpass.rs")
p("Wavetable samples are stored frame by frame",
  "Loading num_tables*table_len samples puts sample i at table i/table_len, position i mod table_len of mip level 0; no two samples share a slot and all slots are within the declared storage.",
  "every table length, table count, sample list and mip level",
  "all sizes up to storage limits",
  "surge-wavetable/src/init.rs", "surge-wavetable/src/calc.rs")
p("Mipmap levels exist and fit",
  "The number of mip levels is the least L >= 1 with 2^L >= table_len (capped at 16), every (mip,table,sample) index used stays within storage, and each coarser level is the half-band-filtered, decimated version of the finer one (sum over all filter taps).",
  "every table length and count, every filter and content",
  "all sizes; tap accumulation visible only with general content",
  "surge-wavetable/src/dim.rs", "surge-wavetable/src/mipmap.rs", "surge-wavetable/src/calc.rs")
p("Loading a wavetable from a WAV never crashes",
  "Converting any readable WAV file into a wavetable returns Ok or Err; the frame length is taken from clm, cue, srge/srgo or smpl metadata in a fixed priority.",
  "every WAV file accepted by the reader",
  "all metadata combinations and sample counts",
  "surge-wavetable/src/try_from_wavfile.rs")
p("Changing the sample rate updates every derived quantity",
  "After set_samplerate(sr) every sample-rate query (rate, inverse, oversampled rate, oversampled inverse; single and double precision) is consistent with sr, exactly as for a unit freshly built with sr.",
  "every sample rate and prior state",
  "all rates and histories",
  "surge-samplerate/src/handle.rs", "surge-samplerate/src/unit.rs")
p("Mid/side encoding is lossless",
  "decode(encode(L,R)) = (L,R) for every block length the functions accept.",
  "every block of samples",
  "all lengths and values",
  "surge-math/src/encode.rs")
p("Clippers keep signals in their documented range",
  "hardclip variants limit symmetric ranges ([-1,1] or [-8,8]) and are the identity inside; softclip variants map into a bounded range, are odd, and monotone.",
  "every sample value",
  "all real values",
  "surge-math/src/hardclip.rs", "surge-math/src/softclip.rs", "surge-math/src/limit_range.rs")
p("16-bit sample conversion and byte swapping are faithful",
  "Converting i16 wavetable samples to float and back is the identity (15-bit variant up to the documented scaling), byte swapping twice is the identity, and 7-bit to bipolar conversion stays in [-1,1] with centre 0.",
  "every sample value / word",
  "2^32 words",
  "surge-math/src/convert.rs", "surge-math/src/value_cast.rs", "surge-math/src/utility.rs")
p("Unison voices are spread symmetrically and keep total level",
  "For n unison voices, detune offsets are symmetric about 0 and within [-1,1], and the left and right pan weights of every voice sum to 2 and are nonnegative.",
  "every n from 1 to the maximum",
  "all n",
  "surge-blitter/src/prepare_unison.rs")
p("Smoothed controllers reach what was set and report it",
  "A controller modulation source's normalised target read back equals the one set, processing moves the output monotonically to the target without overshoot, and has_changed is reported exactly when the value moved.",
  "every bipolar setting, target sequence and step count",
  "unbounded histories",
  "surge-modulation/src/controller.rs")
p("Modulation source classification is consistent",
  "Each modulation source is per-voice or scene-wide but not both; LFO and voice-modulator predicates partition the sources as the enum's documentation says; the custom-controller index is in range exactly for controller sources.",
  "all modulation sources",
  "cross-predicate consistency over the whole enumeration",
  "surge-modulation/src/ty.rs", "surge-types/src/modsource.rs")
p("Standard metadata chunks other than Surge's own are skipped whole",
  "Chunks the reader knows by name but does not interpret (fact, uhWT) are skipped whatever their payload: the spec, length and samples read are those of the file without the chunk.",
  "every payload and every file around it",
  "unbounded payload and file contents",
  "surge-hound/src/read.rs: read_until_data (fact, uhWT branches)")
p("Odd-length chunks padded per RIFF are accepted",
  "RIFF pads a chunk of odd payload length with one byte; a file containing such a padded chunk before its data chunk opens with the same spec and samples as without the chunk.",
  "every chunk payload and file around it",
  "unbounded payload and file contents",
  "surge-hound/src/read.rs: read_until_data, skip_bytes")
p("The MIDI channel and key state can be constructed",
  "Constructing the default MIDI channel / key state returns a zeroed state.",
  "every call (arbitrarily deep stack)",
  "a test sees a stack overflow only as a crash of the test runner; that no stack depth suffices is a statement about all depths",
  "surge-midi/src/channel.rs: MidiChannelState")
p("A played note starts a voice",
  "Playing a note with room under the polyphony limit succeeds: a new voice with that key, channel and velocity sounds, or in single-trigger mono mode the sounding voice glides to the key.",
  "every scene, poly mode, channel, key and velocity",
  "all voice lists and modes",
  "surge-scene/src/scene/play.rs: play_note, play_voice", "surge-scene/src/scene/create.rs")
p("Lifting the pedal releases held notes in every scene",
  "In the two-scene modes (dual, key split) a note held by the pedal is released in every scene in which it sounds when the pedal is lifted.",
  "every pair of scenes, hold buffer and channel",
  "needs two scenes with histories of held notes",
  "surge-synthesizer/src/synth/channel_controller_cc.rs: CC 64", "surge-scene/src/scene/release.rs: purge_holdbuffer")
p("MIDI learn stores a code that identifies the learned controller",
  "When a macro is armed for MIDI learn, the next controller event stores a code in that macro only, disarms, and codes of plain CCs, RPNs and NRPNs never coincide.",
  "every controller, RPN/NRPN number, channel and prior state",
  "2^14 RPN numbers x CCs x states",
  "surge-synthesizer/src/synth/channel_controller.rs", "surge-synthesizer/src/synth/channel_controller_rpn.rs")
p("Voices that finish in a block are freed, and no others",
  "Processing a block ages every voice, removes exactly the voices whose processing reported that they ended, keeps the rest in order, and does not panic.",
  "every voice list and every pattern of finishing voices",
  "index shifting fails only when two or more voices end in the same block",
  "surge-scene/src/scene/process.rs")
p("Pitch bend goes where MPE says",
  "With MPE on, a bend on a member channel changes that channel's bend in semitones (bend/8192 times the MPE range) and no other state; with MPE off it changes the bend of every scene and no per-channel state; 14-bit bends map into [-1,1).",
  "every channel, bend value and prior state",
  "all states x channels x bends",
  "surge-synthesizer/src/synth/pitch_bend.rs")
p("Steps masked out of the trigger mask are skipped",
  "If a bit of the trigger mask is 0, the step at that index is skipped when the sequencer advances (documented at set_trigmask).",
  "every mask, position and random draw",
  "2^64 masks x positions x draws",
  "surge-stepseq/src/next.rs", "surge-stepseq/src/stepsequencer.rs: set_trigmask")
p("The sequencer loops between its loop points",
  "Inside the loop, advancing goes to the following step and from loop_end back to loop_start; it never leaves the loop.",
  "every loop, position and random draw",
  "all loop settings and histories",
  "surge-stepseq/src/next.rs")
p("A step triggers with its probability",
  "A step with probability p triggers for exactly floor(p*2^64) of the 2^64 random words: never for 0, always for 1; every storable probability can be used.",
  "every probability value and random word",
  "a test can only sample random words",
  "surge-stepseq/src/probability.rs: trigger_probability, set_probability")
p("Mutation and swing keep steps in [0,1]",
  "mutate_sequence leaves each step as it was or in [0,1] whatever is drawn; apply_swing moves exactly every second step of the loop, clamped to [0,1] (also for infinite or NaN amounts), and no other step.",
  "every sequence, rate, range, amount and random draw",
  "all f32 values incl. NaN and infinities, all draws",
  "surge-stepseq/src/random.rs", "surge-stepseq/src/swing.rs")
p("Block arithmetic touches exactly the block",
  "add, subtract, multiply, accumulate, copy and clear of n quads change exactly the 4n destination samples, each to the operation of its two operands, for in-place and non-overlapping buffers; misaligned pointers are refused without a write.",
  "every buffer, placement, block length and arithmetic",
  "all memories x all lengths x all placements",
  "surge-math/src/add.rs: add_block", "surge-math/src/sub.rs: subtract_block", "surge-math/src/mul.rs: mul_block", "surge-math/src/accum.rs", "surge-math/src/copy.rs", "surge-math/src/clear.rs")
p("Block level meters report the true maximum",
  "The largest absolute value / largest square of a block is reported exactly: an upper bound of all samples that one sample attains.",
  "every block of non-NaN samples, every even block length",
  "all sample values and lengths",
  "surge-math/src/absmax.rs: get_absmax, get_absmax_2", "surge-math/src/square.rs: get_squaremax", "surge-math/src/m128.rs")
p("Interpolation hits its end points and stays between them",
  "lerp(x,a,b) for x in [0,1] is a at 0, b at 1 and between them otherwise; cubic interpolation passes through its middle points, keeps constants and is mirror symmetric.",
  "every weight in [0,1] and every sample values",
  "continuum of weights and values",
  "surge-math/src/interp.rs: lerp, cubic_interpolate")
p("Noise stays in [-1,1] and oscillator drift is a slow bounded walk",
  "Feeding correlated noise back into itself never leaves [-1,1], whatever is drawn; oscillator drift is bounded and each block's drift continues from the previous one.",
  "every correlation in [-1,1], every sequence of draws",
  "random draws; unbounded histories",
  "surge-math/src/correlated_noise.rs", "surgeosc-fm2/src/process.rs", "surgeosc-snh/src/process.rs")
p("Fast approximations keep the shape of the function",
  "fasttanh is odd, nondecreasing and (clamped) bounded by 1 up to 1e-5; fastexp is positive, satisfies f(x)f(-x)=1 and is increasing on its stated range; fastsin/fastcos are odd/even; clamp_to_pi_range maps every angle to the equivalent angle in [-pi,pi].",
  "every real argument",
  "continuum of arguments",
  "surge-math/src/fast.rs")
p("Window functions are symmetric and between 0 and 1",
  "Blackman, Blackman-Harris, Hamming and Hanning windows of every length are mirror symmetric, lie in [0,1], and reach the expected values at the ends and centre.",
  "every length n >= 2 and every position",
  "all lengths and positions",
  "surge-math/src/window.rs")
p("Integer helpers compute what they say",
  "bitscan_reverse gives the position of the highest set bit; the 16-bit sine is total, periodic, odd and bounded by full scale.",
  "every 32-bit word",
  "2^32 inputs",
  "surge-math/src/scan.rs: bitscan_reverse", "surge-math/src/sine.rs: sine")
p("Wide panning law",
  "megapan is mirror symmetric, unity at the centre, silent on the far side at +-1, phase-inverted beyond, and clamped at +-2.",
  "every position",
  "continuum of positions",
  "surge-math/src/pan.rs")
p("Parameter switches take effect",
  "Turning range extension, snapping, absolute or tempo sync on or off is reported back and changes the displayed value accordingly; clearing the flags clears all of them; no switch changes the stored value.",
  "every parameter and every switch history",
  "all parameter types and combinations of switches",
  "surge-param/src/extend_range.rs", "surge-param/src/snap.rs", "surge-param/src/clear_flags.rs", "surge-param/src/extend.rs", "surge-param/src/parameter.rs")
p("Modulation depth round trip",
  "Setting a modulation depth as a fraction and reading it back gives that fraction, clamped to [-1,1]; parameters that cannot be modulated report 0.",
  "every float parameter range and every depth",
  "continuum of ranges and depths",
  "surge-param/src/get_modulation.rs", "surge-param/src/set_modulation.rs")
p("Note names",
  "get_notename gives pitch class and octave of every note number, different notes have different names, and it never panics.",
  "every note number",
  "all integers, negative ones included",
  "surge-param/src/notation.rs: get_notename")
p("Tempo-sync labels",
  "The label of a tempo-synced value says note, triplet or dotted according to the ratio of the value to the nearest lower plain note.",
  "every tempo-synced value",
  "continuum of values",
  "surge-param/src/notation.rs: tempo_sync_notation_value")
p("Keyboard mappings load and apply",
  "A .kbm text loads to a mapping with its size, middle note, reference note, frequency and keys; applying a mapping retunes accordingly (tune_a69_to(f) makes key 69 sound at f); the standard mapping restores equal temperament or keeps the loaded scale.",
  "every mapping text, every tuner state",
  "all texts and states",
  "surge-tuning/src/keyboard_mapping.rs", "surge-tuning/src/remap.rs")
p("Pitch lookup is exact on whole notes, linear and increasing in between, and safe outside",
  "n2p gives the table entry on whole notes, the straight line between neighbours otherwise, is nondecreasing for every nondecreasing table, doubles per octave in standard tuning, gives 1 at the tuning centre, and never panics for notes outside the table.",
  "every table and every (fractional) note number",
  "continuum of notes, all tables",
  "surge-tuning/src/tuner.rs", "surge-tuning/src/tables.rs", "surge-math/src/interp.rs: lerp")
p("The analog envelope charges, discharges to sustain, releases to silence and stays in [0,1]",
  "In analog mode the output rises from 0, then settles on sustain squared while the note is held, falls to silence after release within finitely many blocks (one block for a quick release) and is then reported idle; it always stays within [0,1].",
  "every setting, sustain level and number of blocks, every sequence of triggers and releases",
  "termination and invariants over unbounded block counts and real-valued settings",
  "surge-adsr/src/process_block_analog.rs", "surge-adsr/src/attack.rs", "surge-adsr/src/release.rs", "surge-adsr/src/uber_release.rs")
p("Interpolated tables: exact on the grid, linear between, safe outside",
  "db_to_linear is exact at whole decibels, linear between and increasing; envelope rates are exact at sixteenths of an octave of time, linear between and positive; waveshapers interpolate their table and saturate at +-1; arguments outside the table give the nearest end or an equally safe value, never a panic.",
  "every real argument of every lookup",
  "continuum of arguments; boundary behaviour at table ends",
  "surge-tables/src/gain.rs", "surge-tables/src/envelope.rs", "surge-tables/src/waveshape.rs")
p("LFO waveforms: right frequency for ever, within the magnitude",
  "The phase advances by exactly the rate each block modulo whole turns and stays in [0,1]; the output is envelope x magnitude x the selected waveform at that phase (unipolar: mapped to [0,1]) and never exceeds the magnitude; readers of the LFO get that output; every shape works with the Deform parameter; noise is correlated as Deform asks.",
  "every number of blocks, every rate, phase, deform, magnitude and shape",
  "unbounded number of blocks, continuum of settings",
  "surge-lfo/src/process.rs", "surge-lfo/src/process_shapes.rs", "surge-lfo/src/phase_over_one.rs", "surge-lfo/src/bend.rs", "surge-lfo/src/modsource.rs", "surge-math/src/correlated_noise.rs")
p("LFO step sequencer: loops, shuffles and fires retriggers",
  "On each completed turn the sequencer moves to the next step, looping from loop end to loop start; the remembered steps shift by one; set trigger bits fire exactly the named envelopes and only then; shuffle lengthens one step and shortens the next by the shuffle amount; without glide the output is the current step and with glide stays between steps.",
  "every sequence, loop, mask, number of turns and shuffle amount",
  "unbounded number of turns, all masks",
  "surge-lfo/src/phase_over_one.rs", "surge-lfo/src/process_shape_stepseq.rs", "surge-lfo/src/attack_shape_stepseq.rs")
p("LFO trigger modes",
  "Key trigger starts every note at the same start phase and first step; random starts at a random phase and a random step of the loop; free-running starts at the phase and step given by the song position.",
  "every LFO state, every setting and every random draw",
  "must hold for every prior history and every draw",
  "surge-lfo/src/attack.rs", "surge-lfo/src/update.rs", "surge-lfo/src/attack_shapes.rs", "surge-lfo/src/phaseslider.rs")
p("The delay mixes input, feedback, crossfeed and output as its controls say",
  "Each block stores the panned input plus the feedback amount of the same channel's echo plus the crossfeed amount of the other channel's echo, and outputs the input faded by Mix into the echo with its side part scaled by Width; fully dry is transparent; the delay-time modulation stays bounded.",
  "every input block, history, delay time, filter and control setting",
  "unbounded histories, continuum of settings",
  "surgefx-dualdelay/src/process.rs", "surgefx-dualdelay/src/update.rs", "surgefx-dualdelay/src/init.rs")
p("Interpolation tables hold the windowed sinc",
  "After initialisation row j of each interpolation table holds the windowed-sinc kernel (cutoff 0.455 resp. 0.85) sampled at 5-i+j/256, the difference part interpolates linearly to the next row, the kernel is even, peaks at its centre and vanishes at the ends; the 16-bit table is the same kernel scaled by 16384.",
  "every row, tap and interpolation fraction",
  "a continuum of fractions; trigonometric identities for every entry",
  "surge-tables/src/sinc.rs", "surge-math/src/sinc.rs", "surge-math/src/window.rs")
p("Flat wavetable storage: no two samples share a slot",
  "The flat index of (mip level, table, sample) is injective for every size, table count and padding, stays inside the allocated size computed by the size function, and an index is handed out only while it lies inside the fixed storage.",
  "every wave size, number of waves, mip level and padding",
  "unbounded sizes",
  "surge-wavetable/src/calc.rs:get_wt_index")
p("Wavetable size exponent",
  "The power-of-two exponent reported for a wavetable is the base-2 logarithm of its table length.",
  "every table length",
  "all lengths",
  "surge-wavetable/src/base.rs", "surge-math/src/scan.rs")
p("Window functions are symmetric and normalised",
  "The Blackman, Hann, Hamming and Blackman-Harris windows are symmetric about their middle and stay in [0,1]; the symmetric variants are even about 0.",
  "every length n >= 2 and every real position",
  "a continuum of positions, every length",
  "surge-math/src/window.rs")
p("Tempo-synced values snap to note, triplet or dotted divisions",
  "Setting a tempo-synced parameter stores a note length 2^k, or that length times 4/3 (triplet) or 3/2 (dotted), in the same octave as what was set; a value that already is a division stays; a larger set value never gives a smaller stored one; the stored division is the nearest one.",
  "every parameter range and every real set value",
  "a continuum of values",
  "surge-param/src/bound_value.rs", "surge-param/src/set_value.rs")
p("Pressure, mod wheel, MPE pan and timbre reach the right place with the right scale",
  "Channel pressure v on a channel is stored for that channel as v/127 and reaches both scenes unless it comes from an MPE member channel; poly pressure is stored for its key only; the mod wheel reaches both scenes as v/127; with MPE on, controllers 10 and 74 set the pan and timbre of their own channel on a strictly increasing scale from -1 through 0 at 64 to 1; nothing else changes.",
  "every synth state, channel, key and 7-bit value",
  "every state and message; the frame condition covers all other registers",
  "surge-synthesizer/src/synth/automation.rs", "surge-synthesizer/src/synth/channel_controller_cc.rs", "surge-math/src/convert.rs")
p("Program change selects bank and program",
  "A bank select followed by a program change queues exactly patch bank*128+program, distinct (bank, program) pairs queue distinct patches, and no note, controller or scene changes.",
  "every state, bank and program",
  "all pairs and states",
  "surge-synthesizer/src/synth/midi.rs")
p("The scenes that play are the scenes notes go to",
  "In single mode exactly the active scene plays, in split and dual modes both do; a note is only ever routed to a scene that plays.",
  "every mode, active scene, split point, channel and key",
  "all combinations of routing settings and notes",
  "surge-synthesizer/src/synth/process_control.rs", "surge-synthesizer/src/synth/channel_mask.rs")
p("Latched voices are released once, when their scene stops playing",
  "After a release has been armed, the next control step frees the voices of each scene that does not play (of every scene if forced), keeps those of a scene that plays, and disarms; the latched note is played only in latch mode in a playing scene without voices.",
  "every scene state, armed flags and playing scenes",
  "histories of arming and control steps",
  "surge-scene/src/scene/release.rs", "surge-scene/src/scene/play.rs", "surge-synthesizer/src/synth/process_control.rs")
p("The MPE unit stores what it is given",
  "A new unit is off with last key 60, ranges 48 and 0 and no key pressure; the last key and the pressure of each key read back as stored, one key never disturbs another, out-of-range keys are refused loudly; the channel carrying the settings common to a voice is the master channel in MPE mode and the voice's own otherwise, so a member channel's note-off reaches the voices of all member channels in single-trigger mode.",
  "every unit state, key and value",
  "all histories of writes",
  "surge-mpe/src/unit.rs", "surge-mpe/src/handle.rs")
p("A halted engine outputs silence; a running one completes its block",
  "While processing is halted each block leaves only inaudible values (at most 1e-15) in both output channels and touches nothing else; otherwise, with any inputs or none, a block of audio is produced.",
  "every memory content, buffer address, block and flag setting",
  "every memory layout and buffer content",
  "surge-synthesizer/src/synth/process.rs", "surge-math/src/clear.rs", "surge-input/src/handle.rs")
p("Left and right channels are independent",
  "A stereo buffer can hold any left signal together with any right signal: writing one channel never changes the other.",
  "every pair of signals and every buffer address",
  "all signals; the overlap is an address computation",
  "surge-input/src/handle.rs", "surge-output/src/handle.rs")
p("Scratch blocks stay inside their buffer",
  "Clearing a fresh scratch block fills it with inaudible noise and changes no memory outside it.",
  "every address, length and memory content",
  "adjacent memory is not observable in a unit test",
  "surge-synthesizer/src/synth/process.rs", "surge-math/src/clear.rs")
p("Exactly the effects the user left on run, in order",
  "An effect processes the block if and only if its slot is loaded, its disable bit is clear and the bypass setting admits its group (all: everything; no sends: inserts and globals; scene effects only: inserts; off: none); inserts run first, then sends, then globals, each once.",
  "every bypass setting, disable mask, effect behaviour and memory content",
  "4 bypass settings x 256 masks x arbitrary effects",
  "surge-synthesizer/src/synth/process.rs", "surge-types/src/effect.rs")
p("The output is the sum of the scenes, scaled, clipped",
  "With the effects off every output sample is the sum of the two scenes' samples times amplifier and mute-fade gain, clipped to [-8, 8]; whatever the effects do - NaN and infinities included - no output sample leaves [-8, 8]; when the mute fade is at 0 the output is silent.",
  "every scene content, gain ramp, effect behaviour and memory layout",
  "all float inputs including NaN; arbitrary effects",
  "surge-synthesizer/src/synth/process.rs", "surge-math/src/hardclip.rs", "surge-math/src/accum.rs")
p("The level meter holds peaks and decays",
  "After every block the meter shows at least that block's peak, never more than the loudest peak so far or 2, and falls by 0.3 percent per silent block.",
  "every history of block peaks",
  "unbounded histories",
  "surge-synthesizer/src/synth/process.rs", "surge-samplerate/src/unit.rs")
p("Every voice is filtered in its own lane",
  "Two voices never share a filter lane, every voice's lane is in a processed quad and switched on, each quad is processed once, and every lane without a voice is switched off.",
  "every number of voices",
  "every voice count",
  "surge-scene/src/scene/process.rs")
p("A format header opens exactly when its fields agree",
  "Opening a WAV file succeeds exactly when the fmt chunk is self-consistent (at least one channel, whole bytes per sample, block alignment = channels x bytes per sample, byte rate = rate x alignment), is of a known kind (PCM, IEEE float with 32 bits, extensible with a PCM or float sub-format) with an extension of the right size, and the data chunk holds whole frames; then the reported spec and length are those of the header. Otherwise the error is a format error, or Unsupported for an unknown kind.",
  "all values of the six header fields, all extension bytes, all data lengths",
  "six independent integer fields and variable-length extensions: the space is 2^112 headers",
  "surge-hound/src/read.rs: read_fmt_chunk", "surge-hound/src/read.rs: read_wave_format_pcm", "surge-hound/src/read.rs: read_wave_format_ieee_float", "surge-hound/src/read.rs: read_wave_format_extensible")
p("Wavetable metadata chunks report the frame length they encode",
  "clm, srge, srgo and smpl chunks between fmt and data are recognised, consumed completely, leave the audio untouched and report the frame length (2048 for '<!>2048' and for smpl without loop, the stored length for srge/srgo, last - first + 1 for a one-loop smpl); malformed ones are a format error, never a panic.",
  "all field values, extra bytes, sample data and specs",
  "the chunks carry 32-bit fields and arbitrary trailing bytes; a unit test fixes one file",
  "surge-hound/src/read.rs: read_clm_chunk", "surge-hound/src/read.rs: read_srge_chunk", "surge-hound/src/read.rs: read_srgo_chunk", "surge-hound/src/read.rs: read_smpl_chunk")
p("Every biquad design is stable for every usable cutoff and Q",
  "After any of the filter designs (low-pass, high-pass, second low-pass, all-pass, band-pass, morph, notch, peak) is set with a cutoff between 0 and half the sample rate and a positive quality factor, output samples are bounded by a constant (depending on the design only) times the input bound plus whatever the registers held, over any number of blocks, and after the input goes silent the output decays geometrically. Above half the sample rate the guarded designs are a straight wire (the high-pass: silence). While gliding between two such designs every intermediate coefficient set stays in the stability triangle. Refuted: band-pass, morph and peak designs have no guard above half the sample rate and an impulse makes the output leave every bound.",
  "all designs, all cutoffs 0 < omega (below or above pi), all Q > 0, all register contents, all input blocks",
  "Instability only shows for particular cutoffs and after arbitrarily many samples; a test samples a few cutoffs for a few blocks.",
  "surge-biquad/src/coeff_lp.rs: coeff_lp","surge-biquad/src/coeff_hp.rs: coeff_hp","surge-biquad/src/coeff_bp.rs: coeff_bp","surge-biquad/src/coeff_notch.rs: set_notch_filter_coefficients","surge-biquad/src/process_mono.rs: process_block_mono")
p("The biquad computes the second-order difference equation, in every processing variant",
  "Every output sample is b0 x[n] + b1 x[n-1] + b2 x[n-2] - a1 y[n-1] - a2 y[n-2] with each coefficient taken when its product was formed, also while coefficients glide. The block function equals the one-sample function repeated (registers under 1e-30 are zeroed at the end of a block), writes the same values in place or to a separate output, and stereo is two independent mono filters; the lag-free, no-input and slow-lag variants agree with it.",
  "all filter states, all input lists, all positions",
  "Holds for every signal and every coefficient trajectory; a test checks a few samples.",
  "surge-biquad/src/process_sample.rs: process_sample","surge-biquad/src/process_mono.rs: process_block_mono","surge-biquad/src/process_stereo.rs: process_block_stereo","surge-biquad/src/process_sample_nolag.rs: process_sample_nolag","surge-biquad/src/process_slowlag.rs: process_block_slowlag")
p("The biquad designs have the gains their names promise",
  "Low-pass: gain 1 at DC, 0 at half the sample rate, Q at the cutoff. High-pass: 0, 1, Q. Band-pass: 0, 0, 1 at the centre, at most 1 everywhere. Peak: 0.1 + 10 r^2 at the centre and never more. Notch: 1, 1, 0 at the centre and never more than 1. All-pass: 1 at every frequency. Second low-pass: 1 at DC. Peaking equaliser: 1 at DC, and 0 dB is a straight wire.",
  "all cutoffs strictly between 0 and half the sample rate, all Q > 0, all frequencies where stated",
  "A trigonometric identity over a continuum of cutoffs, quality factors and frequencies.",
  "surge-biquad/src/coeff_lp.rs: coeff_lp","surge-biquad/src/coeff_hp.rs: coeff_hp","surge-biquad/src/coeff_apf.rs: coeff_apf","surge-biquad/src/coeff_notch.rs: set_notch_filter_coefficients","surge-biquad/src/coeff_pka.rs: coeff_pka","surge-biquad/src/coeff_peak_eq.rs: coeff_peak_eq","surge-biquad/src/plot_magnitude.rs: plot_magnitude")
p("The plotted magnitude is the filter's response to a sine",
  "Fed a sine of any amplitude, frequency and phase, from any register contents, the output of a tuned filter approaches geometrically a sine of the same frequency whose amplitude is the input's times plot_magnitude at that frequency.",
  "all designs, cutoffs and Q in the usable range, all frequencies, amplitudes, phases and initial registers",
  "A limit statement about an infinite run for every frequency.",
  "surge-biquad/src/plot_magnitude.rs: plot_magnitude","surge-biquad/src/process_mono.rs: process_block_mono")
p("Setting biquad coefficients: first at once, then gliding",
  "The first coefficients set on a new filter are in effect at once and stay; later ones leave the current coefficients in place and are approached by 0.4 percent of the remaining distance per sample; instantize jumps to them; none of these calls touches the signal registers. The resonance control maps every number into [1/1.02, 50], increasing; the cutoff in hertz is below half the sample rate exactly when omega is below pi.",
  "all filter states, all coefficient sets, all numbers of samples, all resonance values",
  "Quantifies over every state and every number of processed samples.",
  "surge-biquad/src/set_coeffs.rs: set_coef","surge-biquad/src/biquad.rs: coeff_instantize","surge-biquad/src/calc.rs: calc_v1_q","surge-lag/src/vlag.rs: process")
p("The low-pass/high-pass morph filter morphs",
  "The third argument of the morphing design moves the filter from low-pass to high-pass. Refuted: it is ignored; for every value the filter is the band-pass of the same cutoff, silent at DC and at half the sample rate.",
  "all cutoffs, Q, morph positions and inputs",
  "Quantifies over all inputs and all morph positions.",
  "surge-biquad/src/coeff_lph.rs: coeff_lph_morph")
p("The time unit reports the host's tempo",
  "After an update the tempo ratio is the host tempo divided by 120 and its stored inverse is its reciprocal (their product is 1 up to rounding), the song position is the host's, and nothing else changes. Refuted for the handle the components hold: no call can give the shared unit a tempo, so every update makes the ratio 0 and the inverse infinite.",
  "all time units with a tempo ratio between 2^-100 and 2^100; all histories of handle calls",
  "Quantifies over all f64 tempi and all call histories.",
  "surge-timeunit/src/unit.rs: TimeUnit::update","surge-timeunit/src/unit.rs: TimeUnitHandle")
p("The quadrature oscillator is at its accumulated phase",
  "After any history of rate changes, phase sets and steps the oscillator's two outputs are exactly sine and minus cosine of the accumulated phase, so its amplitude never drifts. Refuted when it is stepped before its first rate set: it collapses to 0 and the next rate set divides by zero.",
  "all histories of set_rate, set_phase and process, all phases and rates",
  "Quantifies over unbounded histories; drift shows only in the limit.",
  "surge-quadrosc/src/lib.rs: set_rate","surge-quadrosc/src/lib.rs: set_phase","surge-quadrosc/src/lib.rs: process")
p("The vocoder band filter is stable",
  "For every centre and spread whose detuned centres are at most a third of the sample rate and every quality of at least 10 the state-variable band-pass is stable: bounded input gives bounded output from every state and initial states are forgotten geometrically. Setting or copying coefficients keeps the signal state, reset clears everything.",
  "all centre frequencies, spreads and qualities in that range, all states, all inputs of any length",
  "Quantifies over all states and unbounded inputs.",
  "surge-svf/src/svf.rs: set_coeff","surge-svf/src/svf.rs: calc_bpf","surge-svf/src/svf.rs: copy_coeff")
p("The vocoder band filter passes its centre at unit gain and blocks DC",
  "With zero spread a sine at the centre frequency comes out, after a geometrically vanishing transient, with exactly the amplitude it went in; a constant input dies out; the filter obeys superposition.",
  "all centres up to a third of the sample rate, all qualities of at least 10, all states, amplitudes and phases",
  "Quantifies over all states and steady-state behaviour in the limit.",
  "surge-svf/src/svf.rs: calc_bpf","surge-svf/src/svf.rs: calc_omega")
p("Filter coefficients approach the requested ones without overshoot",
  "When the same coefficients are requested block after block, the smoothed coefficient loses a fixed fraction of its distance per block and never overshoots. Refuted for the first block after a reset: its request is discarded and the filter starts from all-zero coefficients.",
  "all requested coefficient vectors, all numbers of blocks, all coefficient indices",
  "Quantifies over all block counts and real coefficients.",
  "surge-coeffmaker/src/maker.rs: from_direct","surge-coeffmaker/src/maker.rs: make_coeffs")
p("The clip and tanh waveshapers keep the signal inside [-1, 1]",
  "For every pair of numbers, infinities and NaN included, both shapers return a finite number in [-1,1]; the clipper returns the nearest point of the interval; the tanh curve is odd, nondecreasing, saturates exactly at +-3 and lies above the true tanh; an inexact reciprocal moves it by at most its relative error. Refuted for huge negative signals: the tanh shaper returns +1 for every product up to -2^64.",
  "all f32 inputs and drives, all behaviours of the reciprocal instruction",
  "Quantifies over all pairs of f32 values.",
  "surgeshaper-tanh/src/tanh.rs: shape","surgeshaper-clip/src/clipper.rs: shape","surge-filter/src/filter_traits.rs: clip_bipolar")
p("The digital waveshaper quantises and preserves silence",
  "For every positive drive the output is an odd multiple of drive/32 within drive/32 of the input, and it is nondecreasing in the input. Preserving silence is refuted: 0 becomes -drive/32 for every drive.",
  "all inputs up to 6e7 times the drive, all positive drives, all reciprocals of bounded relative error",
  "Quantifies over all reals.",
  "surgeshaper-digi/src/digi.rs: shape")
p("The asymmetric and sine waveshapers shape their input",
  "The output depends on input times drive through the corresponding shaping table. Refuted: for every input and drive the output is one fixed table entry, a constant non-zero level; and the sine shaper overflows an integer exactly when lane 0 quantises to -1 while lane 1 saturates.",
  "all inputs, drives, lanes and table contents",
  "Quantifies over all inputs and lanes, including interactions between voices in different lanes.",
  "surgeshaper-asym/src/sse2.rs: shape","surgeshaper-sine/src/sse2.rs: shape","surge-tables/src/tables.rs: get_waveshaper_ptr")
p("Voices that share a filter quad do not interact",
  "Four voices are filtered together in one quad. For every filter configuration and all filters and shapers that act on each lane separately, one block leaves every voice in the state it would have reached alone, and adds to every output sample exactly the sum of what the four voices alone would have written into silence.",
  "all configurations, all lane-wise filters and shapers, all states of four voices, all inputs and output buffer contents",
  "Quantifies over all filters and all states of all four voices.",
  "surge-qfunit/src/do_serial1.rs","surge-qfunit/src/do_serial2.rs","surge-qfunit/src/do_serial3.rs","surge-qfunit/src/do_dual1.rs","surge-qfunit/src/do_dual2.rs","surge-qfunit/src/do_ring.rs","surge-qfunit/src/do_stereo.rs","surge-qfunit/src/do_wide.rs","surge-qfunit/src/write_outputs.rs")
p("An inactive lane is silent and irrelevant",
  "A lane whose active mask is off adds nothing to the output whatever its leftover state, inputs, gains, filters and shaper; replacing an inactive voice by any other inactive voice changes neither the output nor the other three voices.",
  "all configurations, filters, states, inputs",
  "Quantifies over all leftover states and filters.",
  "surge-qfunit/src/write_outputs.rs")
p("Gain, mix, drive, feedback and pan ramps reach their targets exactly at the end of a block",
  "Over a block of 64 samples every ramped quantity a configuration uses moves from its start value by 64 steps, so a step of (target - start)/64 ends exactly on the target. Refuted for the left pan of the stereo and wide configurations: it is stepped twice per sample and ends as far beyond the target as it started before it.",
  "all configurations, units, states and targets",
  "Quantifies over all real targets and states and all combinations of installed units.",
  "surge-qfunit/src/write_outputs.rs: qfc_write_outputs_dual","surge-qfunit/src/do_serial2.rs","surge-qfunit/src/do_stereo.rs")
p("Processing a quad never fails on a missing unit",
  "Whichever of the two filters and the shaper are installed or absent and whichever configuration is selected, a block is processed without panicking on an absent unit.",
  "all configurations, all combinations of installed units, all states, any arithmetic",
  "Quantifies over all arithmetic behaviours and states.",
  "surge-qfunit/src/config.rs: get_fn_process_quad","surge-qfunit/src/do_wide.rs")
p("With its units off a voice is passed straight through the configuration's mixer",
  "With no filter and no shaper installed and no feedback, each output sample receives exactly the two inputs combined by the configuration's mixer at the ramped mix levels, times the ramped gain and pan.",
  "all configurations, inputs, gains, mixes, pans and their ramps, all output buffer contents",
  "Quantifies over all real inputs and levels.",
  "surge-qfunit/src/do_serial1.rs","surge-qfunit/src/do_ring.rs","surge-qfunit/src/do_dual1.rs")
p("The feedback path cannot blow up",
  "With filters and shaper whose output is bounded, every output sample of a block is bounded by an explicit multiple of the input, gain and pan bounds whatever the feedback amount and the contents of the feedback lines.",
  "all feedback amounts and lines, all configurations, all saturating units, all bounded inputs",
  "Quantifies over all feedback amounts and all states of the loop.",
  "surge-qfunit/src/do_serial2.rs","surge-qfunit/src/do_dual2.rs")
p("A voice is loaded into its own lane and resumes where it left off",
  "Loading a voice into lane e of a quad succeeds exactly for 0 <= e < 4, leaves the other lanes alone, activates lane e and starts every ramp at the value reached before, ending at the new target; feedback lines survive the round trip, so no level jumps at a block boundary. Refuted for the left pan of two-output configurations.",
  "all lanes, all quads, all voice parameters of consecutive blocks",
  "Quantifies over all parameter histories and all lanes.",
  "surge-voice/src/set_qfb.rs: set_quad_filterblock","surge-voice/src/sync_from_qfb.rs","surge-voice/src/calc_pan.rs: calc_pan")
p("Filter balance and voice pan laws",
  "The balance gives each filter a level in [0,1], monotone, one filter alone at each extreme, sum 1 in the dual configurations and both filters full at centre in the serial ones; panned levels are nonnegative, sum to at most twice the voice level, are equal at centre and silence the far side at the extremes. Refuted for the channel pan: it never moves the second bus of a two-output voice.",
  "all balances, pans, channel pans, widths and volumes",
  "Quantifies over all real pan and balance positions.",
  "surge-voice/src/set_qfb.rs: set_quad_filterblock","surge-voice/src/calc_pan.rs: calc_pan")
p("The state variable filter's coefficients are always in the region where it is stable",
  "For every cutoff note, sample rate, resonance and pole count, including out-of-range values, the coefficients the design produces satisfy the bounds under which the filter is stable, and a higher cutoff never produces a lower frequency coefficient.",
  "all positive pitches and sample rates, all resonances, all filter subtypes",
  "Quantifies over all real cutoffs, sample rates and resonances.",
  "surgefilter-svf/src/svf.rs: coeff_make")
p("The state variable filter is stable",
  "With fixed coefficients in the design's range a silent input makes the stored energy decay geometrically, and for every bounded input of any length the outputs of the low-, band- and high-pass, two- and four-pole versions stay below a bound that does not depend on the length.",
  "all coefficients in the stable region with resonance at most 0.86, all states, all bounded input sequences of any length",
  "Stability is a statement about infinitely many input sequences of unbounded length.",
  "surgefilter-svf/src/svf_process.rs","surgefilter-svf/src/quad_svf_lp12_a.rs","surgefilter-svf/src/quad_svf_lp24_a.rs","surgefilter-svf/src/quad_svf_hp12_a.rs","surgefilter-svf/src/quad_svf_bp12_a.rs")
p("The state variable filter passes what its name says at DC",
  "A constant input settles: the low-pass passes it, the high-pass and band-pass remove it (exact steady state, and convergence to it at zero resonance). A freshly created filter forgets its first sample.",
  "all stable coefficients, constant inputs, states",
  "Convergence ranges over all coefficients and unbounded time.",
  "surgefilter-svf/src/svf_process.rs","surgefilter-svf/src/quad_svf_lp12_a.rs")
p("The Moog ladder cannot blow up",
  "For every note, sample rate and resonance the pole coefficient is in [0,1), the feedback in [0, 2.15] and the make-up gain between 1 and 3.53. For every input sequence whatsoever, with no bound on the input or the feedback and while the coefficients glide, every register and every output sample stays below the clipper's limit of 11.5; the selected output is the stage named by the subtype.",
  "all real notes, sample rates, resonances; all input sequences of any length and size; all gliding coefficients",
  "Boundedness ranges over all input sequences of unbounded length and amplitude.",
  "surgefilter-moog/src/coeff.rs","surgefilter-moog/src/process.rs","surge-math/src/softclip.rs: softclip8_ps")
p("The sample & hold filter samples at the requested rate",
  "Between sampling instants the output is exactly the held value; at an instant it is the clipped input minus resonance times the held value. At a rate r up to one per sample the number of instants in n samples differs from n r by less than one for every n; above it every sample is taken. In binary32, whatever is fed in, NaN and infinities included, the output is finite and at most 65/32.",
  "all rates, resonances, inputs (every binary32 value), run lengths",
  "Freedom from drift is a statement about unbounded time; the bound covers every binary32 value.",
  "surgefilter-snh/src/snh.rs")
p("The comb filter delays by the requested time and stays inside its buffer",
  "The delay asked for is inside the buffer for every note and sample rate and is met to 1/512 of a sample; the filter behaves as an ideal interpolating feedback comb over any history, position in the circular buffer and gliding delay, never accesses memory outside the delay buffer or the interpolation table, and stores only values in [-1,1]. Refuted for the code as shipped: it panics on every quad with a playing voice because lane extraction is unimplemented, and even with it implemented the table row is extracted before it is scaled, giving misaligned or wrong rows.",
  "all notes, sample rates, resonances, inputs of any length, buffer positions, histories, tables; all sets of active lanes",
  "Quantifies over all histories, buffer positions and delays.",
  "surgefilter-comb/src/coeff.rs","surgefilter-comb/src/comb.rs","surgefilter-comb/src/process_sse2.rs","surge-math/src/align.rs: simd_extract","surge-voice/src/filter.rs")
p("The half-rate filter is a half-band low-pass, whatever the block size, with independent channels",
  "From rest, for all coefficients, all stereo signals and all ways of cutting them into blocks (multiples of four, at most 256 samples), the left output is the half-band low-pass (mean of an all-pass cascade and a delayed all-pass cascade) of the left input, the right of the right, sample for sample; longer blocks panic; reset after any use restores the filter at rest.",
  "all coefficient lists, all infinite stereo signals, all block divisions",
  "Quantifies over all signals, coefficients and block divisions.",
  "surge-halfrate/src/process_block.rs","surge-halfrate/src/scratch.rs","surge-halfrate/src/halfratefilter.rs: reset")
p("Changing the sample rate is low-pass filtering plus dropping or inserting samples",
  "From rest, for all signals and block divisions, downsampling by two gives the low-passed signal at every second sample, and upsampling gives the low-pass of the signal with a zero between any two samples.",
  "all coefficient lists, all infinite stereo signals, all block divisions",
  "Quantifies over all signals, coefficients and block divisions.",
  "surge-halfrate/src/process_block_d2.rs","surge-halfrate/src/process_block_u2.rs")
p("The half-rate filter never adds energy",
  "For every input signal and at every moment the output has carried no more energy than the input, so the filter is stable and never louder than its input; each all-pass stage stores exactly the energy that has not come out yet.",
  "all signals, all lengths, all coefficients in (-1,1)",
  "A bound over all signals of unbounded length.",
  "surge-halfrate/src/process_block.rs")
p("The half-rate filter passes DC, removes Nyquist, and upsampling keeps the level",
  "A constant input converges to itself and an alternating input to zero, for every filter. Refuted for upsampling: a constant comes out at half its value.",
  "all coefficients in (-1,1), all levels",
  "Convergence over unbounded time for all coefficients.",
  "surge-halfrate/src/process_block.rs","surge-halfrate/src/process_block_u2.rs")
p("Half-rate filters exist for one to six stages and are stable",
  "Construction succeeds exactly for one to six stages, steep or soft, giving a filter at rest with that many stages whose two coefficient lists interleave inside (0,1); any other stage count panics.",
  "all stage counts and both slopes",
  "Ranges over all stage counts and ties the literal tables to the stability condition.",
  "surge-halfrate/src/halfratefilter.rs: new","surge-halfrate/src/loadstore.rs","surge-halfrate/src/steep.rs","surge-halfrate/src/softer.rs")
p("The conditioner's level table holds the maximum of the last 128 samples",
  "For every input and every division into blocks, processing from init never panics, returns as many samples as it got, and the top of the level table is exactly the largest squared stereo peak of the last 128 samples (silence before the start).",
  "all stereo streams, all block sizes, all rate settings",
  "A tree repaired incrementally must agree with the true window maximum after every history of unbounded length.",
  "surgefx-conditioner/src/lookahead.rs: do_lookahead","surgefx-conditioner/src/block.rs: do_conditioner_block","surgefx-conditioner/src/init.rs")
p("The limiter reacts to every loud sample within its look-ahead",
  "The gain follows the largest peak in the look-ahead window. Refuted: the gain is computed from one table leaf, so it depends only on the samples whose number is 126 modulo 128; any two inputs that agree there get identical gains, and peaks elsewhere pass without any reduction.",
  "all stereo streams, all block divisions, all rate settings",
  "The dependence of a gain sequence on all inputs cannot be established by samples of inputs.",
  "surgefx-conditioner/src/lookahead.rs: get_lookahead","surgefx-conditioner/src/block.rs: update_filtered_lamax, update_gain")
p("The limiter delays by 128 samples and never amplifies",
  "From init and for all rate settings, each output is the input 128 samples earlier times a gain in (0, 1+eps], eps the error of the hardware reciprocal. Refuted for a conditioner that has not been initialised: its first gain is at least 276.",
  "all stereo streams, all block divisions, all rate parameters in -1..1",
  "Gain range and delay must hold after every history.",
  "surgefx-conditioner/src/block.rs","surgefx-conditioner/src/cfg.rs: ConditionerProcessCfg","surgefx-conditioner/src/init.rs")
p("A sustained peak is brought down at the attack rate, and the gain recovers when idle",
  "Under a sustained peak the gain is below the reciprocal of a level that converges geometrically to the peak's; while idle the gain rises monotonically to at most 1 with an explicit geometric bound and no buffer changes; the balance control keeps the louder side at half the pre-gain and fades the other linearly.",
  "all levels, rates, durations and balance settings",
  "Convergence over unbounded time for all settings.",
  "surgefx-conditioner/src/block.rs: update_filtered_lamax","surgefx-conditioner/src/process.rs: process_only_control, update_amp")
p("The ring modulator's diode ring is balanced",
  "For all bias and linear-region settings the diode curve is zero below the bias, nonnegative, nondecreasing and at most of slope one; the ring gives nothing without input or without carrier, is odd in both and never exceeds the input's magnitude or twice the carrier's.",
  "all real voltages and parameters",
  "A statement about a function on all reals.",
  "surgefx-ringmod/src/diode_sim.rs: diode_sim","surgefx-ringmod/src/process.rs")
p("The ring modulator's carrier runs at the requested frequency",
  "The carrier's phase after n samples is n increments modulo one cycle. Refuted: on wrap-around the phase is set to zero, so the carrier repeats exactly every k+1 samples (k whole increments in one cycle): all requested frequencies in (1/(k+1), 1/k] sound the same; above one cycle per sample the carrier stands still. The phase does stay in 0..1.",
  "all phase increments and all sample counts",
  "Holds for unboundedly many steps and every increment.",
  "surgefx-ringmod/src/process.rs")
p("The ring modulator's output stage and mix",
  "Silence gives silence, and up to full scale the output stage is monotone and bounded. Refuted: there is no clipping above full scale (polarity flips beyond sqrt 3, amplification beyond sqrt 5, reached by full-scale material), stereo is folded to mono, and mix 0 still colours the dry signal.",
  "all samples, carriers, mixes and voice lists",
  "Statements over all real samples.",
  "surgefx-ringmod/src/process.rs")
p("Ring modulator unison is spread evenly",
  "For 2..16 voices start phases, detune (-1..1) and pans are evenly spaced with left plus right pan 1; one voice is centred; more than 16 panic; the gain scale is in (0.4, 1].",
  "all voice counts and all earlier settings",
  "Every voice of every count, from any earlier state.",
  "surgefx-ringmod/src/update.rs: update_unison_settings","surgefx-ringmod/src/process.rs","surgefx-ringmod/src/new.rs")
p("The sine oscillator's waveforms stay within full scale",
  "For every point of the unit disc and every shape number the waveform value is in -1..1; shapes 0, 2, 3 and 4 are antisymmetric under half a turn, shapes 1, 5, 6 flat in the lower half.",
  "all sine/cosine pairs and all shape numbers",
  "Ranges over a continuum of inputs.",
  "surgeosc-sine/src/compute.rs: value_from_sin_and_cos")
p("The distortion's oversampled loop holds each sample for four passes with independent channels",
  "For every shaper, feedback and filter state, the oversampled signal of each channel is the feedback/low-pass/shaper/low-pass loop run on that channel's driven input with every sample held four times; without feedback and filters it is the shaper alone; the selected curve's number is always in range (a negative parameter panics).",
  "all shapers, feedbacks, filter coefficients and states, blocks and gains",
  "Equality of signals for all shapers and inputs.",
  "surgefx-distortion/src/block.rs: do_distortion_block","surgefx-distortion/src/process.rs: process_blocks","surgefx-distortion/src/get.rs: get_waveshape_idx")
p("The distortion's output is its oversampled signal brought back to the block's rate",
  "The 128 oversampled values are decimated by four into the 32 output samples. Refuted: the decimators' results are overwritten; the output is the first 32 oversampled values, i.e. the first 8 input samples stretched fourfold, later samples of the block are inaudible, and every block writes 32 samples per channel past the end of the caller's buffers.",
  "all shapers, feedbacks, gains, states and blocks",
  "Independence from inputs and memory extent for all states.",
  "surgefx-distortion/src/process.rs: process_halfrate, process_outgain, stereo_process")
p("The reverb is a sixteen-line feedback delay network with the configured delays, gains and pans",
  "For every input stream, the outputs of a run from cleared buffers satisfy the textbook recurrence: each line is read exactly (delay time / 256) + 1 samples after it was written, smoothed by the damping, fed back through the energy-preserving matrix with its loop gain, and excited by the mono input delayed by the pre-delay. With wrapping arithmetic no sample panics.",
  "all stereo streams of any length, all damping values, all pre-delays below 32768, all delay tables below 32768 samples, all gains and pans",
  "The interleaved ring buffers must return the right sample after every history of unbounded length.",
  "surgefx-reverb/src/block.rs: delay_idx, do_reverb_block, do_pre_taps, do_post_taps","surgefx-reverb/src/pre_tap.rs","surgefx-reverb/src/post_tap.rs","surgefx-reverb/src/get.rs: get_fb")
p("The reverb tail dies out",
  "Once the input is silent, the output of the network is bounded by a decaying exponential whenever every loop gain is below one and damping is below one, and never grows when gains are at most one.",
  "all inputs that become silent, all histories before that, all configurations with gains below one",
  "Stability of a feedback network is a statement about unbounded time and all histories.",
  "surgefx-reverb/src/post_tap.rs: do_post_tap","surgefx-reverb/src/get.rs: get_fb","surgefx-reverb/src/pre_tap.rs: do_pre_tap")
p("Pre-delay works for every setting in checked builds",
  "Refuted: the position subtraction underflows. With overflow checks a sample panics exactly when the pre-delay exceeds the write position; from init any pre-delay of two samples or more panics at the first sample (the default asks for 2756 at 44.1 kHz), and no run with a non-zero pre-delay survives 32768 samples.",
  "all states, all pre-delays, all inputs",
  "The panic depends on the ring position, so on the length of the history.",
  "surgefx-reverb/src/get.rs: get_fb","surgefx-reverb/src/block.rs: calculate_predelay_time")
p("Every reverb preset and room size is realisable",
  "For every preset and room size in 0..1 the sixteen delays fit the buffers, loop gains lie in (0,1] (below 1 from room size 0.001), pans have constant power, are symmetric and strictly ordered; so the initialised effect's tail dies out.",
  "all presets, room sizes in 0..1, decay times, sample rates",
  "The real-valued room size and decay time range over a continuum.",
  "surgefx-reverb/src/preset.rs: load_preset","surgefx-reverb/src/update.rs: update_rtime","surgefx-reverb/src/init.rs: init_taps")
p("The decay time parameter sets the decay rate",
  "Undamped, with shortest line M+1 samples, the silent tail falls at least 60 dB in every 2^decay * (M+1)/M seconds.",
  "all presets, room sizes, decay times, sample rates, all inputs that become silent",
  "A rate bound over unbounded time for all histories.",
  "surgefx-reverb/src/update.rs: update_rtime","surgefx-reverb/src/post_tap.rs")
p("The reverb decays at every room size",
  "Refuted at the minimum: with room size 0 every loop gain is exactly 1 whatever the decay time, and without damping the silent tail repeats with period two and constant energy for ever.",
  "all presets, decay times, sample rates, inputs and histories with room size 0 and damping 0",
  "Non-termination of a tail is a statement about unbounded time.",
  "surgefx-reverb/src/update.rs: update_rtime","surgefx-reverb/src/preset.rs: load_preset")
p("Shape, room size and decay settings reach the network",
  "A shape or decay change acts in the next block, a room size change within 32 blocks, and the lines always are configured for the remembered settings; a shape outside 0..3 panics.",
  "all tracked states, all parameter values, any number of blocks",
  "Depends on the phase of a block counter at the time of the change.",
  "surgefx-reverb/src/process.rs: maybe_update_preset, decaytime_diff","surgefx-reverb/src/update.rs: need_recalc_coefficients")
p("Full damping stops the reverb output",
  "With damping 1 the output never changes again, whatever the input: it stays at what the taps held.",
  "all inputs and configurations",
  "Must hold for every input stream of unbounded length.",
  "surgefx-reverb/src/pre_tap.rs: do_pre_tap")
p("Long pre-delays are honoured",
  "Refuted: a pre-delay of 32768 samples or more behaves exactly like its remainder modulo 32768 (the longest setting at 44.1 kHz, 1411200 samples, is played as 2176).",
  "all inputs, states and non-negative pre-delays",
  "Equality of two runs on every input stream.",
  "surgefx-reverb/src/get.rs: get_fb","surgefx-reverb/src/block.rs: calculate_predelay_time","surgefx-reverb/src/param.rs")
p("The flanger's delay line returns the interpolated past",
  "After any history of pushed samples, asking for a delay v between n and n+1 samples (n below 8191) returns the linear interpolation of the samples pushed n and n+1 steps ago (zero before the first). Refuted for long delays: the read wraps, so a delay v+8192 gives the same value as v, and the lowest pitch settings at 44.1 kHz ask for more than 8192 samples.",
  "all histories of any length, all real delays",
  "The ring must return the right pair of samples after every history of unbounded length and for a continuum of delays.",
  "surgefx-flanger/src/interp_delay.rs: value, push")
p("The flanger's output is always within full scale",
  "Every sample a block produces is in [-1, 1] whatever the input, the state and the parameters; the soft clipper is odd, strictly increasing on [-1,1] and fixes the ends.",
  "all inputs, all states, all parameters",
  "A bound over all real inputs and internal states.",
  "surgefx-flanger/src/block.rs","surgefx-flanger/src/softclip_feedback.rs")
p("A flanger block never panics and keeps the state bounded",
  "With parameters in their ranges and a state reachable between blocks, a block of 32 samples bounded by X does not panic and leaves delay lines bounded by X+2, filters bounded, phases in [0,1] and long phase in [0,4).",
  "all inputs bounded by X, all parameter values in range, all draws, all such states; sine modes away from the table edge",
  "An inductive invariant over a real-valued state.",
  "surgefx-flanger/src/process.rs","surgefx-flanger/src/block.rs","surgefx-flanger/src/init_comb.rs","surgefx-flanger/src/weights.rs")
p("The flanger's feedback never explodes",
  "Starting from a new flanger, any sequence of blocks with parameters in range (modes other than the two table-driven ones) and inputs bounded by X never panics and keeps both delay lines bounded by X+2, even at full feedback; with feedback at or below zero the line holds just the input.",
  "all sequences of blocks, all inputs bounded by X, all parameter changes between blocks",
  "Stability over unbounded time under arbitrary modulation.",
  "surgefx-flanger/src/process.rs","surgefx-flanger/src/softclip_feedback.rs","surgefx-flanger/src/block.rs")
p("The flanger LFO stays in range and never reads outside its table",
  "At every phase in [0,1) every waveform is in [-1,1]. Refuted at the edge: the phase wraps only when strictly above one, and a phase step landing exactly on 1 (or 2) makes the sine waveform index the table out of bounds and panic, exactly then; a new flanger reaches it with a phase step of 1/8. Sample-and-hold only ever produces the upper half of the range.",
  "all phases and phase steps in [0,1], all waveforms, all draws",
  "The failing phases are isolated points of a continuum.",
  "surgefx-flanger/src/init_comb.rs","surgefx-flanger/src/init.rs")
p("Comb weights select the requested voices and crossfade at constant power",
  "In unison and Doppler the first n combs have weight one and the others zero for n = 1..4; in arpeggio exactly one comb sounds, or two neighbours (cyclically) crossfade with squared weights adding to one over the last tenth of a step. Modes 0..11 decode to all type/waveform pairs and every other value panics.",
  "all long phases in [0,4), all voice counts, all modes in i32",
  "Real-valued phase; all integer values of the mode and voice count.",
  "surgefx-flanger/src/weights.rs","surgefx-flanger/src/process.rs","surge-types/src/effect.rs: FlangerType, FlangerWave")
p("Every shipped parameter starts and stays inside its declared range",
  "For all 271 parameters of all effects, oscillators, filters, envelopes, LFOs, scenes and patch: a fresh parameter holds a finite value between its minimum and maximum, and still does after any history of sets with any float (NaN and infinities included), re-bounding and switch changes. Refuted for ten: six have a default of another kind than their range and panic on every set, four ring modulator parameters have an empty range and are stuck at 0 for ever (their normalised read is 1 or NaN). The reverb's high cut is the only usable parameter whose declared default lies outside its range.",
  "all shipped parameters, all histories of operations, all float arguments",
  "The product of all parameters with all unbounded histories of sets cannot be enumerated.",
  "surge-param/src/set_value.rs","surge-param/src/bound_value.rs","surge-param/src/limit_range.rs","surgefx-ringmod/src/param.rs","surgeosc-fm2/src/param.rs","surgeosc-snh/src/param.rs","surgeosc-wavetable/src/param.rs","surgefx-reverb/src/param.rs")
p("Integer parameters can be set to every value of their range",
  "Refuted for all fifteen shipped integer parameters with an integer range: a normalised set ignores its argument, and after any history with at least one set the value is the default, or 16 for the three unison counts whatever was asked.",
  "all shipped integer parameters, all histories, all arguments",
  "The claim is about every value and every history.",
  "surge-param/src/set_value.rs: set_value_f01","surgefx-flanger/src/param.rs","surgefx-vocoder/src/param.rs","surgeosc-super/src/params.rs","surgeosc-window/src/param.rs")
p("What a host writes to a parameter is what it reads back",
  "Without rounding, for every shipped float parameter with a control type, after any history without tempo sync, writing v in 0..1 and reading gives v, and the stored value is min + v(max-min). Refuted for every parameter of the envelopes, LFOs, waveshapers, patch, scenes and the oscillators' common part: they are declared with control type Nil and read 0 whatever was written.",
  "all shipped float parameters, all histories, all v in 0..1",
  "Real-valued v and unbounded histories.",
  "surge-param/src/get_value.rs: get_value_f01","surge-param/src/set_value.rs: set_value_f01","surge-param/src/control_type.rs: GetControlType","surge-scene/src/scene/param.rs","surge-lfo/src/param.rs","surge-adsr/src/param.rs")
p("Reading a parameter with the type the code expects never panics",
  "All 340 typed reads of parameters in the source, after any history of the public operations on a fresh parameter: 66 of them always panic and the others never do. Refuted: among the 66 are the envelope shapes and mode, the LFO shape, trigger mode and unipolar switch, the scene's polyphony mode, routes, mutes and solos, the patch's scene mode, split key and effect bypass, the oscillators' retrigger switch and two unison counts.",
  "all typed reads in the source, all histories of operations on the parameter",
  "A typed read is safe only if no history can change the kind of the value.",
  "surge-param/src/pval.rs: pval","surge-param/src/pdata.rs","surge-scene/src/scene/get.rs","surge-lfo/src/get.rs","surge-adsr/src/check_analog.rs","surge-synthesizer/src/synth/get.rs","surgeosc-snh/src/init.rs","surgeosc-wavetable/src/init.rs")
p("The all-pass reverb's pre-delay delays",
  "The pre-delay returns what it was fed tap samples earlier. Refuted: it asserts that the read index is positive, so with any constant pre-delay setting of 1..383999 samples the effect yields only silence and panics on the tap-th sample (3000 samples after start at 48 kHz with the default setting); with any constant tap at all it panics within 384000 samples. Away from the wrap the step is the specified one.",
  "all sample rates, pre-delay settings, block sequences, signals",
  "All signals, settings and block splits of any length.",
  "surgefx-allpass/src/predelay.rs","surgefx-allpass/src/process.rs","surgefx-allpass/src/block.rs: do_process_block")
p("An all-pass section of the reverb passes all frequencies with equal energy",
  "A section of length 1..16384 computes y = d + c(x - c d) with d what entered its delay len samples ago, never panics, and conserves energy: output energy plus (1-c^2) times the stored energy is the input energy, so with |c| <= 1 it never amplifies. A longer section panics at the 16384th sample.",
  "all lengths, coefficients and signals",
  "Real-valued signals of any length.",
  "surgefx-allpass/src/allpass.rs")
p("The reverb's sections fit their buffers at every rate and room size",
  "For sample rates 1..135 kHz and every room size in range all twelve sections get a length between 1 and 16384. Refuted above 135414 Hz: with the largest room the second section of block 3 is longer than its buffer (and then panics).",
  "all sample rates, all room sizes",
  "Continuum of rates and room sizes.",
  "surgefx-allpass/src/calc_size.rs: calc_size","surge-samplerate/src/handle.rs: ms_2_samples","surgefx-allpass/src/constants.rs")
p("The reverb's tank delays are as long as requested",
  "Whatever the length, taps and modulation, the delay returns the interpolated sample at that distance modulo the 16384-cell buffer; so unmodulated delays and taps of 1..16384 samples are exact, and every size computed is exact when rate * 178.8 ms * 2^room stays below 16385 samples. Refuted: at 48 kHz with the largest room the first block's 17164-sample delay really is 780 samples.",
  "all lengths, taps, modulations and signals",
  "All signals and positions in the ring buffer.",
  "surgefx-allpass/src/delay.rs","surgefx-allpass/src/calc_size.rs: calc_size")
p("The reverb's tail dies away",
  "With nothing coming in, no modulation and constant settings in range, the loop never panics, its total energy never grows, the feedback signal's total energy is at most d^2/(1-d^2) of the initial energy, and each output stays within the sum of its tap gains times the square root of the energy. Refuted with low damping at 0: the damper's residue is frozen and subtracted from the loop for ever.",
  "all loop states, settings in range and numbers of samples",
  "A stability claim over unbounded time and all states.",
  "surgefx-allpass/src/block.rs: do_process_block","surgefx-allpass/src/one_pole_filter.rs","surgefx-allpass/src/delay.rs","surgefx-allpass/src/allpass.rs")
p("The reverb is linear and takes the sum of its inputs",
  "From the initial state, for every sequence of blocks and parameter changes, the wet answer to a*x + b*y is a times the answer to x plus b times the answer to y; and only left + right of the input matters.",
  "all factors, signals, block sequences and parameter sequences",
  "Quantifies over pairs of signals and all histories.",
  "surgefx-allpass/src/block.rs: do_process_block","surgefx-allpass/src/process.rs")
p("Reverb parameter changes glide",
  "After any history, n samples into a block decay, diffusion, build-up, high damping and modulation are exactly n/32 of the way from the previous setting to the new one. Refuted for low damping: its smoother is never advanced, so it holds the previous block's value for the whole block and then jumps.",
  "all histories, parameter changes and positions in the block",
  "All histories and parameter values.",
  "surgefx-allpass/src/block.rs: do_process_block","surgefx-allpass/src/process.rs","surge-lipol/src/lipol.rs")
p("The reverb's decay time is the time to fall by 60 dB",
  "The per-pass factor is strictly between 0 and 1, grows with the decay time, and raised to the number of passes made in 2^DecayTime seconds (four per loop of 550.8 ms times the room scale) is exactly 1/1000, for every room size and decay time.",
  "all room sizes and decay times",
  "Real exponents.",
  "surgefx-allpass/src/process.rs","surgefx-allpass/src/calc_size.rs: calc_size")
p("A send effect hears its sends and returns its output",
  "The effect in a send slot is handed, left and right, what its send buffer held plus each scene's output times that scene's send level; afterwards exactly its output times the return level is added to the master output and nothing else is changed; its verdict on whether there is sound is passed on. A switched-off slot changes nothing and reports no sound.",
  "all buffer contents and non-overlapping layouts, gains, effects, arithmetics",
  "All buffers, gain ramps and effects plugged in.",
  "surge-synthesizer/src/synth/process.rs: maybe_add_send_a, maybe_add_send_b")
p("The flanger's LFO produces the advertised waveforms",
  "Triangle and saw are the straight-line waves over the cycle, sine is the sine of the phase to within 1/1000 (interpolated table), sample-and-hold takes a new random value exactly when the cycle restarts, phases advance by the rate and wrap at one (the arpeggio's at four), and comb i is tuned to the period of note v0 + 6 i.",
  "all phases, rates, table positions, sample rates and comb indices",
  "Continuum of phases; accuracy bound for every phase.",
  "surgefx-flanger/src/init_comb.rs","surgefx-flanger/src/process.rs")
p("A flanger block computes the documented signal path with smoothed settings",
  "In every block, sample n is computed with every setting n steps into a 32-step linear ramp from its previous target: audible combs are mixed by weight, the clipped, shaped and high-passed mix is fed back with the input, and the output is dry (none in Doppler mode) plus mix, clipped and shaped; left and right are independent. The conditions assumed on the state are preserved by every block.",
  "all blocks, settings, states satisfying the preserved invariant, and signals",
  "All signals and all histories of settings.",
  "surgefx-flanger/src/process.rs","surgefx-flanger/src/block.rs","surgefx-flanger/src/softclip_feedback.rs","surgefx-flanger/src/block_comb_process.rs","surgefx-flanger/src/weights.rs")
p("The fast approximations are close to the functions they stand for",
  "Over the exact reals: fast sine and cosine are within 0.00002 and 0.00014 on [-pi, pi], and after range reduction on the whole line; fast exp has relative error at most 0.0012 on [-3, 3]; fast tanh is within 0.0003 on [-5, 5] and its clamped form within 0.0004 everywhere; fast tan is the tangent of an angle off by at most 4e-9 for |x| <= 1.57.",
  "all arguments in the stated intervals",
  "An accuracy bound over a continuum.",
  "surge-math/src/fast.rs")
p("The ring modulator multiplies by the chosen carrier shape",
  "Away from the axes each of the nine oscillator shapes is the advertised wave of the sine and cosine; the carrier of shape 0 is minus the sine of the phase to 0.00002; each output sample is the pan-weighted sum of every voice's ring product with both inputs, mixed with its dry input, scaled by the gain and cubically shaped, and every voice's phase moves on.",
  "all shapes, phases, inputs, voice lists and settings",
  "Continuum of phases and inputs, any number of voices.",
  "surgefx-ringmod/src/process.rs","surgeosc-sine/src/compute.rs")
p("The phaser's LFO stays in its cycle and never makes the effect panic",
  "For every history of blocks with settings in their ranges the LFO phase stays in [0, 1], both channels' LFO in [-1, 1] and nothing panics; the phase after 8k blocks is the starting phase plus 8k times the rate, modulo one; an effect that is only being controlled keeps the same time. Violated: above one cycle per eight blocks (allowed by the rate parameter below 262 kHz) the phase is brought back by a single turn and grows without bound, until with the standard tuning the note looked up leaves the table and the run panics; process_only_control advances the phase eight times as fast.",
  "all histories of blocks, settings in range, rates, starting states",
  "The panic only comes after a number of blocks that depends on rate and depth.",
  "surgefx-phaser/src/update.rs","surgefx-phaser/src/process.rs","surgefx-phaser/src/init.rs","surgefx-phaser/src/constants.rs")
p("The phaser's chain keeps the energy of the signal and its tail dies",
  "Four tuned sections in series are exactly energy preserving: output energy plus stored energy is input energy plus what was stored before, so from rest no prefix of the output carries more energy than the input. Once the input is silent, with feedback at most g < 1 in magnitude (it may move), the energy of the whole tail is bounded however long it lasts.",
  "all signals of any length, all tunings below half the sample rate, positive Q, stored states and feedback histories",
  "All signals and all lengths; a bound on an infinite tail.",
  "surgefx-phaser/src/block.rs","surgefx-phaser/src/update.rs","surge-biquad/src/coeff_apf.rs")
p("The phaser's output is bounded whatever is fed to it",
  "For a chain tuned below half the sample rate there is a bound, depending on the tuning and stored state only, that the wet output never exceeds, for any input and feedback. With the LFO depth at zero and constant settings this holds for the whole effect from its initial state: every history of input blocks is processed without panic and no output exceeds the bound.",
  "all inputs, feedback values, histories of blocks and tunings below half the sample rate",
  "Inputs are unbounded and histories of any length.",
  "surgefx-phaser/src/block.rs","surgefx-phaser/src/process.rs")
p("The phaser treats its channels alike and apart",
  "With Stereo at zero a mono signal stays mono through any history; what is heard on the right never depends on what comes in on the left; with Mix at one (where it starts) exactly the processed signal is heard.",
  "all histories of blocks and settings (mono: rates of at most one cycle per eight blocks), all signals",
  "All histories and signals.",
  "surgefx-phaser/src/process.rs","surgefx-phaser/src/block.rs","surgefx-phaser/src/update.rs")
p("Portamento glides from where the pitch is to the new note, never overshooting",
  "However the glide rate moves from block to block, the key that sounds is the point the accumulated fraction (at most the whole) of the way from the glide's source to the note; each block brings it closer or leaves it; at a constant rate the glide is linear and arrives after 1/rate blocks. A legato note starts its glide from the key that sounds at that moment. Violated: a legato note arriving when the fraction is exactly one panics; and as shipped every glide step panics, because the tempo-sync ratio, not implemented, is asked for even by parameters that are not tempo-synced.",
  "all histories of non-negative rates, sources, notes, bends and legato points",
  "All rate histories; the panic needs the fraction to be exactly one.",
  "surge-voice/src/portamento.rs","surge-voice/src/state.rs","surge-voice/src/release.rs")
p("A new note's glide starts where its play mode says",
  "A note glides from the last key, unless portamento is at its minimum or, in single-trigger fingered mode, the note is detached: then it sounds at its own pitch at once. Violated: the own pitch is used only when mode and minimum both hold; with portamento at its minimum in every other mode the note glides from the last key, and for about a second (with the shipped rate table: fraction 64 n / sample rate after n blocks).",
  "all play modes, portamento values, keys, bends and previous keys",
  "All combinations of mode, value and previous key.",
  "surge-voice/src/init_portasrc.rs","surge-voice/src/state.rs","surge-voice/src/init.rs")
p("Absolute pitch shifts by hertz, relative pitch by semitones",
  "With the pitch parameter absolute, the note returned sounds at the frequency of the note asked for plus the parameter times 10 Hz (times twelve when extended), exactly, for every table of increasing pitches in whose range that lies; relative parameters add semitones, or octaves when extended, and never panic. Violated: in absolute mode the fraction of the note is dropped, so bends, glides and detuning jump in semitones, even with a shift of zero; notes at or below -257 panic.",
  "all tuning tables, notes and parameter values",
  "All tunings and all reals.",
  "surge-voice/src/note_shift.rs","surge-tuning/src/tuner.rs")
p("A voice's pitch is key plus bend plus scene pitch and octave, and key tracking follows it",
  "The pitch composes additively from glide key, pitch bend, scene pitch and octave (twelve keys in standard tuning, otherwise the scale's period), so transposing any part transposes the whole; bend covers exactly its up and down range and is monotone; key tracking is zero at its root and counts octaves; cutoffs are linear in key tracking and envelope with filter 2 keeping its offset. Violated: at note-on and switch changes key tracking is the pitch minus a twelfth of the root; whether oscillators 1 and 2 follow the keyboard is decided by oscillator 3's switch; as shipped there is no pitch-bend source and asking for it panics.",
  "all pitches, bends, octaves, ranges, tunings and switch settings",
  "All reals and all settings.",
  "surge-voice/src/calc_pitch.rs","surge-voice/src/calc_keytrack.rs","surge-voice/src/get.rs","surge-voice/src/create.rs")
p("A voice's mixer sums what is switched on, at its level, where it is routed",
  "In the wide configuration each output sample is, per filter, the sum over oscillators, ring modulators and noise that are enabled and routed to that filter of level times source, times the pre-filter gain; levels are the cubes of their parameters once they rest; in serial configurations both means filter 1 only. Violated: in every other configuration filter 2 receives the ring modulators only; the pre-filter gain follows the noise level's decibels and ignores its own parameter; the noise colour changes only the loudness, the same way for opposite colours, never the spectrum.",
  "all source signals, levels, routes, switches, FM configurations and configurations",
  "All signals and all 2^6 switch settings with all levels.",
  "surge-voice/src/process.rs","surge-voice/src/do_osc.rs","surge-voice/src/do_ring.rs","surge-voice/src/do_noise.rs","surge-voice/src/calc_levels.rs","surge-voice/src/calc_route.rs")
p("Each voice's audio enters the shared filter in its own lane",
  "Sample k of the voice in lane e of a quad should be stored in lane e of the quad's sample k and nowhere else. True for lane 0. Violated for lanes 1 to 3: the lane is used as an offset of whole quads, so voice e is written e samples late over lane 0, its own lane is never written, and its last e samples are written past the end of the buffer; of four voices only the last is heard, in the first voice's lane.",
  "all voices, blocks and buffers",
  "All signals and lanes; memory past the end of an array.",
  "surge-voice/src/process.rs")
p("A voice plays until its amplitude envelope is idle, and counts its age in blocks",
  "For every history the voice asks to be kept exactly up to the block before the first in which its envelope is idle, and never again; its age is the number of blocks and its release age the number of blocks with the gate shut. Violated as shipped: no voice can be created and no block processed, since the default pitch and the tempo-sync ratio are not implemented.",
  "all histories of gate and envelope up to 2^31 - 1 blocks",
  "All histories.",
  "surge-voice/src/process.rs","surge-voice/src/calc_modsources.rs","surge-voice/src/init.rs","surge-voice/src/state.rs")
p("Exactly the oscillators a block needs are run, each with the modulator's output of the same block",
  "An oscillator runs if it is heard, multiplied by an enabled ring modulator, or modulates (through the FM configuration) one that runs; it sees what its modulator put out in this block; one that does not run keeps its state. Violated: with ring modulator 1x2 alone oscillator 3 does not run though it modulates, so old modulation is used; a block panics when oscillator 1 sounds and oscillator 2 or 3 has a type that makes no object; a new voice's oscillators are never initialised.",
  "all switch settings, FM configurations, oscillator behaviours and states",
  "All combinations of switches, with arbitrary oscillators.",
  "surge-voice/src/process.rs","surge-voice/src/toggle_osc.rs","surge-voice/src/toggle_fm.rs","surge-voice/src/toggle.rs")
p("A filter whose type changes starts from rest; others are not disturbed",
  "When the type or subtype asked of a voice's filter differs from the last, its registers and write position are zero, its coefficients made anew and, in the wide configuration, its twin is at rest too; otherwise nothing changes; either way the unit now has the type asked for. Violated for the twin: a change made in another configuration leaves it alone, and it is not reset when the configuration becomes wide later.",
  "all filter states, types, subtypes and configurations",
  "All states and orders of changes.",
  "surge-voice/src/toggle_filter.rs","surge-voice/src/filter.rs")
p("Voices sharing a quad filter keep to their lanes",
  "Loading a voice writes exactly its own lane of coefficients, increments, registers, write position and delay line (apart from the Moog ladder's subtype, kept in lane 0 for the whole quad), and only of filters that are on; whatever voices are loaded together in different lanes, each reads its own state back; a lane outside 0..3 panics. Two voices in one lane would read the second one's state.",
  "all sets of voices with distinct lanes, filter states, types and configurations",
  "All sets of voices and states.",
  "surge-voice/src/set_qfb.rs","surge-voice/src/sync_from_qfb.rs")
p("The sine oscillator plays its note in the chosen waveform",
  "With steady pitch, no drift, feedback or FM, sample n of the sine oscillator is the chosen waveform at angle n w, where w is the angle of the note's frequency per oversampled sample (at most half a cycle), over any number of blocks; note 69 in standard tuning is 440 Hz to a thousandth and an octave doubles. Every block, whatever its settings and history, is 64 samples within full scale, and in stereo both channels are the same. Violated for the legacy behaviour: its waveforms run backwards, so shapes 2 and 3 are exchanged, 6 is inverted and 8 moved a quarter cycle.",
  "all notes, tunings, waveforms, sample rates, block counts; all states for the bound",
  "All block counts and all states; the phase is carried across blocks.",
  "surgeosc-sine/src/process.rs","surgeosc-sine/src/block.rs","surgeosc-sine/src/legacy.rs","surgeosc-sine/src/compute.rs","surge-tuning/src/tuner.rs","surge-quadrosc/src/lib.rs")
p("Feedback of the sine oscillator follows its setting",
  "A listener expects sample n to be the waveform at its angle plus feedback times the sample before. Violated: the feedback of the first block after the oscillator is made is the only one ever used, and it fades by 0.4% per sample, whatever is set later; so a sine with feedback turns into a plain sine.",
  "all feedback settings block by block, pitches, waveforms, sample counts",
  "All sequences of settings.",
  "surgeosc-sine/src/block.rs","surgeosc-sine/src/process.rs","surgeosc-sine/src/new.rs","surge-lag/src/lag.rs")
p("The FM oscillator is a carrier moved in phase by three modulators",
  "With steady pitch and no feedback, sample n is the sine at n w plus the modulators' sines at their own frequencies (ratio times the note; an absolute note for the third), each with depth 32 pi times its amount cubed. Violated in time: the depths are those of the first block only and fade by 0.4% per sample, so within 1728 samples (20 ms) the bare carrier is left to a thousandth of the depth. Every block is 64 samples within full scale.",
  "all amounts, ratios, pitches, block counts, later settings",
  "All settings histories and block counts.",
  "surgeosc-fm/src/process.rs","surgeosc-fm/src/block.rs","surgeosc-fm/src/init.rs","surgeosc-fm/src/new.rs","surge-lag/src/lag.rs")
p("The FM2 oscillator starts near zero and its shift moves the modulators apart",
  "With steady pitch and no feedback, sample n has the closed form of two modulators started at the start phase, at integer ratios of the note plus and minus the shift, depth 8 pi times the amount cubed; the first sample is within depth times step of zero whatever the start phase. Violated in time: depths and start phase are those of the first block and fade by 0.4% per sample to a bare, phase-shifted carrier. Every block is 64 samples within full scale.",
  "all amounts, ratios, shifts, start phases, pitches, block counts, later settings",
  "All settings histories and block counts.",
  "surgeosc-fm2/src/process.rs","surgeosc-fm2/src/block.rs","surgeosc-fm2/src/init.rs","surgeosc-fm2/src/new.rs")
p("The audio input oscillator mixes the two inputs",
  "In mono the output is the inputs weighted by gain times one minus and one plus the input-channel setting, clamped to plus or minus one; in stereo each input is on its side with its weight. Violated as a reading of two channels: the left stream is the interleaved left and right samples of the first half of the block, the right stream is the same two samples later, and the rest of the block is never heard.",
  "all inputs, gains, channel settings",
  "All input blocks.",
  "surgeosc-audioin/src/process.rs","surge-input/src/handle.rs")
p("FM reads another oscillator",
  "An oscillator with FM on reads its modulator's samples. Violated: no code ever sets what to read, so as shipped every block of the FM oscillator, of the sine oscillator in its default behaviour, and of any oscillator with FM on reads through a null pointer, even with FM off; FM2 and the legacy sine without FM do not read it.",
  "all configurations, states, parameters",
  "All states and parameters; undefined behaviour, not a failing assertion.",
  "surgeosc-sine/src/block.rs","surgeosc-fm/src/block.rs","surgeosc-fm2/src/block.rs","surge-traits/src/misc.rs","surgeosc-sine/src/new.rs")
p("The chorus plays four voices spread between the speakers",
  "Voice i of four sits at i/3 of the way from left to right with constant power (squares of its two gains sum to a quarter), the outer ones hard left and right; from init, at constant settings, the delay of every voice at every sample stays within plus and minus depth of the delay time. Violated as four voices: the first and last LFO phases, 0 and 1, are the same point of the triangle, so over every history those two voices have equal delays and are heard as one voice in the middle. Violated for tempo sync: that of Rate does nothing and that of Time also scales the LFO's speed.",
  "all settings histories, block counts, samples, delay times, depths, LFO rates of at most one cycle per block",
  "All histories; the LFO phases and delay smoothing persist over blocks.",
  "surgefx-chorus/src/init.rs","surgefx-chorus/src/update.rs","surgefx-chorus/src/block.rs","surge-lag/src/lag.rs")
p("The chorus delay line is safe and cannot run away",
  "For every history of settings and input blocks the chorus processes each block without an access outside its buffers; a voice reads only samples written before the block being played, none older than the line; and whatever the feedback gain, no sample kept in the line exceeds one plus twice the loudest input.",
  "all settings (including any feedback gain and delay), histories and inputs",
  "All histories of any length; a loop gain above one is only harmless because of the clip.",
  "surgefx-chorus/src/process.rs","surgefx-chorus/src/block.rs","surgefx-chorus/src/set_buffer.rs")
p("Mix, width and feedback of the chorus",
  "At constant settings, from the first block after init, each output sample is (1 - mix) of the input plus mix of the wet signal with its side part scaled by width (0 leaves the mono sum, 1 leaves it unchanged), and the line is fed half the feedback gain times the sum of the wet channels, clamped to plus or minus one, plus both inputs; mix 0 is the input exactly.",
  "all settings, inputs and block counts",
  "All inputs and block counts; the gains are ramped, so a click or drift could appear only later.",
  "surgefx-chorus/src/process.rs","surgefx-chorus/src/update.rs","surge-lipol/src/lipol_ps.rs")
p("The rotary horn turns at its rate and sounds from where it is",
  "After any history of blocks from init the horn has turned by the sum over blocks of 2 pi 2^rate times 32 over the sample rate; it is between root 5 minus 1 and root 5 plus 1 from each microphone (so nothing divides by zero), and its level at a microphone is 1 minus 0.6 of the amount times one minus the cosine of the angle it faces away: from 1 down to 1 minus 1.2 of the amount, both reached (so above 5/6 the sound is inverted behind). Violated for tempo sync: the ratio multiplies the exponent, so at double tempo a rate of 1/2 becomes 1/4 and a rate of 1 stays.",
  "all histories of blocks and settings, angles, both microphones",
  "All histories; the angle is carried by repeated rotation.",
  "surgefx-rotary/src/process.rs","surgefx-rotary/src/set.rs","surge-quadrosc/src/lib.rs")
p("The rotary delay line is safe and heard at the horn's travel time",
  "For every history of settings and 32-sample blocks from init, no block accesses a buffer or table outside its bounds; each output sample is, per side, the horn's level times the upper band heard at the travel time, both on a straight line from the previous block's value to this block's, plus the bass; what is heard was written before the block and is not older than the line. A travel time under 33 samples is heard at 32.",
  "all histories, settings, inputs, samples",
  "All histories of any length, including wrap-around of the line.",
  "surgefx-rotary/src/process.rs","surgefx-rotary/src/block.rs","surgefx-rotary/src/post_block.rs","surge-lipol/src/lipol.rs")
p("The rotary bass rotor turns at 0.7 of the horn's speed",
  "The bass of every sample is the lowest band plus the band above it at 0.3 + 0.6 sin(angle), between -0.3 and 0.9. Violated for the speed: the angle meant for a block is made at every sample, so over every history the rotor turns 22.4 times as fast as the horn, and 0.7 times as fast only while the effect is bypassed.",
  "all histories of blocks and settings",
  "All histories.",
  "surgefx-rotary/src/post_block.rs","surgefx-rotary/src/set.rs","surgefx-rotary/src/process.rs")
p("The rotary horn's delay varies smoothly between samples",
  "A travel time between two samples should be read with one row of the interpolation table. Violated: the row number is multiplied by 12 before rounding, so reading starts anywhere in a row. With a table of equal pure delays, travel times 1/3072 of a sample apart are heard up to 11 samples apart, for every history and place.",
  "all travel times of the form n + 1 - k/3072 in the line, all histories",
  "All travel times.",
  "surgefx-rotary/src/block.rs")
p("Suspending the rotary keeps its crossover; the return level sets the level",
  "init tunes the two filters to 440 Hz times 2^0.862496 and 2^-1.14. Violated: suspend clears the filters' coefficients and only init sets them, so after any history, suspend and any further history both bass bands are zero and the horn carries the whole input. Violated: the return level changes nothing.",
  "all histories before and after a suspend, all inputs",
  "All histories before and after.",
  "surgefx-rotary/src/init.rs","surge-biquad/src/biquad.rs","surge-traits/src/effect.rs","surgefx-rotary/src/process.rs")
p("The frequency shifter shifts by single-sideband modulation",
  "For every sequence of settings (RMult always or never 1, delay target below 8 million samples) and input, from a new effect: every block succeeds, and each output sample fades between the input and the single-sideband modulation of the delay line by the accumulated Shift (times 10 Hz, or 1000 Hz extended), the line being fed with the input plus the waveshaped, gain-scaled output. With an upward shift this is the Hartley form cos(phase) A x - sin(phase) B x, with a downward one the phases are applied before the branches, and with none it is the all-pass A. Neither branch adds energy.",
  "all setting sequences, inputs, sinc and waveshaper tables, numbers of blocks",
  "All inputs and histories of any length.",
  "surgefx-freqshift/src/process.rs","surgefx-freqshift/src/pre_block.rs","surgefx-freqshift/src/post_block.rs","surgefx-freqshift/src/update.rs")
p("The frequency shifter never fails and its delay line stays bounded",
  "From a new effect, any history with delay targets up to 8 million samples, inputs bounded by M and a waveshaper table within -1 and 1 succeeds: no index leaves a buffer or table, no filter or oscillator fails, and every cell of the line stays within M + 1, whatever the feedback gain. Beyond: a smoothed time from 9 million to 2 billion samples overflows the row number (a panic in debug builds).",
  "all histories, settings, inputs, tables",
  "All histories of any length, any feedback gain.",
  "surgefx-freqshift/src/pre_block.rs","surgefx-freqshift/src/post_block.rs","surge-quadrosc/src/lib.rs")
p("The frequency shifter's delay is the time set",
  "Violated: with a constant Delay the smoothed time starts at its target T and decays to T/40 (the lag's two factors sum to 0.9961, not 1); with tempo sync the time is 44 samples whatever Delay is, since the inverse ratio is 0; and between k and k+1 samples every time is read with the same table row (the fraction is truncated before scaling), so there are no fractional delays.",
  "all sample rates and settings, all samples, all times inside the line",
  "All settings and all times.",
  "surgefx-freqshift/src/update.rs","surgefx-freqshift/src/pre_block.rs","surge-lag/src/lib.rs")
p("RMult multiplies the right channel's shift",
  "Violated: unless RMult is 1 the right shift is RMult squared times the left one, in every block; RMult m and -m give the same samples from every state, so the right channel can never be shifted the other way.",
  "all settings, states, inputs",
  "All states and inputs.",
  "surgefx-freqshift/src/update.rs")
p("RMult = 1 locks the two channels' oscillators together",
  "While RMult is 1, after any history, the cosine of the angle between the left and right oscillators never decreases, and once it is not negative the squared sine shrinks by at least 9801/9802 per block. Violated in one place: exactly out of phase, it stays so for ever.",
  "all histories followed by any number of locked blocks",
  "All histories.",
  "surgefx-freqshift/src/update.rs","surge-quadrosc/src/lib.rs")
p("Suspending the frequency shifter silences it",
  "After any history, suspend succeeds, and from then on silence in gives silence out for any settings and any number of blocks, if the waveshaper table maps 0 to 0. A new effect is silent likewise.",
  "all histories before suspend, all setting sequences after",
  "All histories before and after.",
  "surgefx-freqshift/src/init.rs","surge-halfrate/src/halfratefilter.rs")
p("A flat equaliser is a straight wire",
  "After any history followed by init, with the three bands at 0 dB in every block (their frequencies, widths and the return level free to change), every output sample is the input times the smoothed overall level; with the overall gain at 0 dB too the output is the input, sample for sample; a constant gain g is approached as g + (1-g)(3/4)^j over the blocks.",
  "all earlier histories, band frequencies and widths in every block, inputs, numbers of blocks",
  "All histories and inputs of any length.",
  "surgefx-eq3band/src/process.rs","surgefx-eq3band/src/update.rs","surge-biquad/src/biquad.rs")
p("The equaliser applies the bands asked for, and fades in after init",
  "After any history followed by init, with band parameters that agree at every eighth block, each block is the three peaking sections designed for those parameters in series (memory below 1e-30 dropped at block ends) times the smoothed level. Violated part: there is no fade-in from flat bands as the code announces: the very first sample already has the full bands, since init makes the filters new after tuning them.",
  "all earlier histories, parameters, inputs, numbers of blocks",
  "All histories and inputs of any length.",
  "surgefx-eq3band/src/init.rs","surgefx-eq3band/src/update.rs","surgefx-eq3band/src/process.rs","surge-biquad/src/biquad.rs")
p("Which equaliser parameters matter, and when",
  "After init, two histories with the same input and Gain in every block and the same band parameters in every eighth block give the same output. Violated part: the ReturnLevel parameter never changes anything.",
  "all states, pairs of histories",
  "All pairs of histories.",
  "surgefx-eq3band/src/update.rs","surgefx-eq3band/src/param.rs")
p("Suspending the equaliser makes it fresh",
  "After any history, suspend leaves exactly the state a new, initialised equaliser has, whatever the parameters; one never initialised starts from level 0.",
  "all histories and parameters",
  "All histories of any length.",
  "surgefx-eq3band/src/eq3band.rs","surgefx-eq3band/src/init.rs","surge-traits/src/effect.rs")
p("A vocoder band passes its own frequency",
  "A band-pass section of the vocoder settles on a steady tone: whatever its memory, a cosine of any frequency comes out, up to a vanishing difference, as a cosine of the same frequency with amplitude multiplied by the gains of the two cascaded stages and a phase moved by an amount that depends on the band and frequency only; tuned to frequency nu, a stage passes nu with gain exactly 1 and a constant with gain 0; below the tuned frequency the gain is below 1. The band is the product of two stages tuned to omega(1-spread) and omega(1+spread).",
  "all frequencies, quality factors and spreads, all times",
  "All real frequencies and unbounded time.",
  "surge-svf/src/svf.rs","surgefx-vocoder/src/update.rs")
p("The vocoder's bands lie where the parameters say",
  "With fewer than 24 bands asked for, an update succeeds and places band k (of the count rounded down to a multiple of four) of the carrier in equal musical steps between the low and high frequency, and of the modulator with the range scaled by the expansion and shifted by the centre; unused bands keep their state; every used band keeps its memory. Violated part: 24 or more bands panic, and loading any patch of streaming revision 10 or older makes the next init panic (the mismatch handler stores integers in float parameters).",
  "all parameters, states and sample rates",
  "All real parameter values, band counts and states.",
  "surgefx-vocoder/src/update.rs","surgefx-vocoder/src/mismatch.rs")
p("The vocoder's bands are stable in range",
  "At sample rates of 44100 Hz and above and with every parameter within its range, init succeeds and every band's coefficients satisfy the stability condition of its recurrence.",
  "all parameters in range, all sample rates from 44100 Hz",
  "A continuum of parameters and sample rates.",
  "surgefx-vocoder/src/update.rs","surgefx-vocoder/src/param.rs","surge-svf/src/svf.rs")
p("The vocoder never blows up",
  "Initialised with parameters in range at 44100 Hz or more, running any number of blocks with the same tuning never fails, and there is one constant, depending only on the tuning, such that every output sample is at most that constant times the bound on the carrier, whatever the side chain, gain, gate and rate.",
  "all side chains (unbounded), carriers, levels, numbers of blocks",
  "Unbounded histories and arbitrary side-chain signals.",
  "surgefx-vocoder/src/process.rs","surgefx-vocoder/src/block.rs","surgefx-vocoder/src/update.rs","surge-svf/src/svf.rs")
p("The vocoder is linear in the carrier and blind to the side chain's polarity",
  "From a freshly initialised vocoder, with the side chain and parameters the same, the output for a combination a*x + c*y of two carriers is the combination of the two outputs; inverting the side chain changes no output sample.",
  "all pairs of carriers, side chains, parameter histories, coefficients",
  "All pairs of histories of any length.",
  "surgefx-vocoder/src/process.rs","surgefx-vocoder/src/block.rs","surge-svf/src/svf.rs")
p("Which vocoder parameters matter, and when",
  "From a freshly initialised vocoder, two histories that agree on the side chain, carrier, gain, gate and rate in every block, and on the band parameters in every 64th block, give the same results. Violated part: the unvoiced threshold and the return level never change anything.",
  "all pairs of histories",
  "All pairs of histories of any length.",
  "surgefx-vocoder/src/process.rs","surgefx-vocoder/src/block.rs","surgefx-vocoder/src/update.rs","surgefx-vocoder/src/param.rs")
p("The vocoder is silent without a side chain, and its gate opens above its level",
  "From a freshly initialised vocoder, a silent side chain gives exactly silent output whatever the carrier. Violated part: when the square of the gate level (the gate plus gain plus 24 dB) exceeds 6, no side chain, however loud, opens any band: the detected power is limited to 6 before it is compared.",
  "all carriers, side chains and parameter histories",
  "All histories of any length.",
  "surgefx-vocoder/src/process.rs","surgefx-vocoder/src/block.rs")
p("Suspending the vocoder makes it fresh",
  "Violated: suspend only re-tunes the bands; every band's filter memories and envelope survive it, and with the tuning unchanged suspend leaves the vocoder's state after any history exactly as it was.",
  "all histories and parameters",
  "All histories of any length.",
  "surgefx-vocoder/src/init.rs","surgefx-vocoder/src/vocoder.rs","surge-traits/src/effect.rs")
p("Each filter-block configuration wires its filters and shaper as its name says",
  "For every configuration (serial 1-3, dual 1-2, ring, stereo, wide), choice of filters and shaper (any functions, possibly absent), chain state and input, a block adds to the output buffers exactly the two bus signals of the configuration's signal network (filters as stream transducers, low-passed shaper, cross-fades, gliding gains, clipped feedback one sample late) times the gliding pan levels, and leaves the units, the shaper's low-pass and the feedback lines in the network's state after 64 samples. In a debug build the stereo and wide configurations do the same as long as every sample written stays strictly within +-32, and panic otherwise.",
  "all configurations, filters, shapers, states and inputs",
  "All filter functions and states.",
  "surge-qfunit/src/do_serial1.rs","surge-qfunit/src/do_serial2.rs","surge-qfunit/src/do_serial3.rs","surge-qfunit/src/do_dual1.rs","surge-qfunit/src/do_dual2.rs","surge-qfunit/src/do_ring.rs","surge-qfunit/src/do_stereo.rs","surge-qfunit/src/do_wide.rs","surge-qfunit/src/macros.rs")
p("Level and frequency helpers",
  "The amplitude conversion is the cube of a positive level and 0 otherwise; the frequency limiter clamps to [-55, 75]; the bend curve is odd and keeps -1, 0 and 1; the 32-bit fixed-point product is the full product shifted right by 16, modulo 2^32.",
  "all inputs",
  "All real and 32-bit inputs.",
  "surge-math/src/convert.rs","surge-math/src/saturate.rs","surge-math/src/trixpan.rs","surge-math/src/mul.rs")
p("Super oscillator settings stay in range",
  "After a note start with any parameter values, and through any later sequence of parameter values, one per block, the smoothed settings of the super oscillator stay in range: widths within [0.001, 0.999], shape within [-1, 1], sub level within [0, 1], sync at least 0. Its speed lies in (0, 1] and its high-pass gain in (0, 0.9982] for every pitch and sample rate.",
  "all histories of parameter values",
  "Histories of any length, real values.",
  "surgeosc-super/src/update_lagvals.rs","surgeosc-super/src/process/process.rs","surgeosc-super/src/set.rs")
p("The super oscillator's level bookkeeping is exact under any modulation",
  "For every sequence of blocks, each with its own settings, speed and hard sync, the level the super oscillator remembers for a voice equals the level of the piecewise-linear wave form its impulses describe (every impulse a jump and a change of slope) just before the next impulse. An impulse that starts a cycle takes that wave form to a level in [0, 1] given by the current settings alone, whatever happened before; after a note start the wave form stays within [-7, 4] for ever.",
  "all block sequences, settings, note starts",
  "Modulation histories of any length.",
  "surgeosc-super/src/convolute/convolute.rs","surgeosc-super/src/convolute/get_g.rs","surgeosc-super/src/process/no_fm.rs","surgeosc-super/src/set_pitch.rs")
p("An undisturbed super oscillator is exactly periodic",
  "With constant settings and no sync, for every division of time into blocks (so for every glide), the k-th impulse of a voice after a cycle start sits at the phase p0 + 2t(k div 4) + t c(k mod 4) with c = 0, pq, pq+(1-p)(2-q), pq+2-q... and has the steady height of its step; no impulse before the end of the last block is missing and none is doubled; four impulses take exactly 2t, two exactly t with a centred sub width.",
  "all settings, phases, block lengths and numbers of blocks",
  "Unbounded runs, real-valued phases.",
  "surgeosc-super/src/convolute/convolute.rs","surgeosc-super/src/convolute/get_g.rs","surgeosc-super/src/process/no_fm.rs")
p("The super oscillator plays its note",
  "In the standard tuning the saw teeth of a voice without detune follow each other at the period of the note. (The code does so with absolute unison spread. With relative spread, the default, it uses the tuner's inverse reference pitch, which is off by 1024, and sounds ten octaves too high.)",
  "all keys and sample rates, all impulses",
  "All keys, rates and times.",
  "surgeosc-super/src/convolute/get_t.rs","surgeosc-super/src/process/process.rs","surge-tuning/src/tuner.rs")
p("Wave forms of the super oscillator",
  "Shape -1 is a pulse of the set width, shape 0 a saw, sub level 1 a pulse an octave below, each one unit high; the mean level over a cycle is zero. (Refuted: the mean is -(1-sub)(1+shape)(1-2 width)(1-2 subwidth)/2, which is zero only at sub level 1, shape -1, or one of the widths at one half.)",
  "all settings",
  "Real-valued settings.",
  "surgeosc-super/src/convolute/get_g.rs","surgeosc-super/src/convolute/convolute.rs")
p("The super oscillator's impulse loop ends",
  "For every block, setting and voice state the impulse loop of the super oscillator ends, every impulse it makes lies inside the block, and the voice is left in a valid state. (True whenever the period is positive. With absolute unison spread a period below 0.1 is replaced by zero, and the loop then runs for ever: in the standard tuning for every sync setting of 40 semitones or more.)",
  "all settings and voice states",
  "Termination for all real inputs.",
  "surgeosc-super/src/process/no_fm.rs","surgeosc-super/src/convolute/get_t.rs","surgeosc-super/src/convolute/convolute.rs")
p("Hard sync restarts the cycle at every master period",
  "With sync on, at every multiple of the master's period that falls into a block there is an impulse at exactly that phase, after which the wave form has the start level of a cycle, and the master's phase carries over to the next block without loss. (The master's period itself is 1024 times too short in the standard tuning: refuted.)",
  "all settings, phases and block lengths",
  "Real-valued phases, unbounded numbers of periods.",
  "surgeosc-super/src/convolute/convolute.rs","surgeosc-super/src/process/no_fm.rs")
p("Every impulse is heard whole, once and in its place",
  "For every sequence of blocks of impulses, the samples read from an impulse buffer of the super oscillator are exactly the sum of all impulse kernels laid out on one continuous time line: none is lost, cut, doubled or displaced at the ends of blocks or of the ring buffer, and nothing is read or written out of bounds. The place of an impulse in samples is its phase times the speed's inverse, to 2^-24 of a sample.",
  "all impulse sequences and numbers of blocks",
  "Unbounded sequences.",
  "surgeosc-super/src/convolute/mono.rs","surgeosc-super/src/convolute/stereo.rs","surgeosc-super/src/process/handle_wrap.rs","surgeosc-super/src/process/process.rs","surge-blitter/src/init.rs")
p("A block of the super oscillator always completes",
  "For every number of voices, mono or stereo, every setting with positive periods, every voice and buffer state, a block of the super oscillator ends without a panic, delivers 64 samples and leaves voices and buffers ready for the next block. (Without the positive periods it may not end, see the impulse loop.)",
  "all settings, voices, buffers",
  "All states.",
  "surgeosc-super/src/process/process.rs","surgeosc-super/src/process/no_fm.rs","surgeosc-super/src/process/block.rs")
p("The super oscillator's output stays bounded",
  "Whatever the impulses and however the high-pass gain moves within its range, the integrated output is bounded by the larger of its start value and 556 times the bound of what it is fed, and dies away at least as 0.9982^n once it is fed nothing. Equal inputs give equal channels; in mono the right channel keeps still.",
  "all input sequences",
  "Unbounded sequences.",
  "surgeosc-super/src/process/block.rs","surgeosc-super/src/update_lagvals.rs")
p("Character filters of the super oscillator",
  "The output is the character filter applied to the integrator. Neutral changes nothing, Bright exactly undoes Warm, each passes a constant unchanged, Warm never exceeds its input's bound and Bright exceeds it by at most (1+f)/(1-f), at every sample rate above 5 kHz.",
  "all input sequences, states and sample rates above 5 kHz",
  "Unbounded sequences, real rates.",
  "surgeosc-super/src/set.rs","surgeosc-super/src/process/block.rs")
p("The sample-and-hold oscillator's level stays within a half",
  "For every sequence of blocks, settings (hard sync included) and random draws, the impulses of a voice come in order of time, each inside its block, and add up to the level the voice holds; at every moment that level is in [-1/2, 1/2]. With Correlation at 0 a new level is the draw limited to [-1/2, 1/2] and does not depend on the last one; otherwise it depends on the last one against the sign of Correlation.",
  "all block sequences, settings, draws", "Random histories of any length.",
  "surgeosc-snh/src/convolute.rs","surgeosc-snh/src/process.rs")
p("The sample-and-hold oscillator holds two levels a period, of lengths set by Width",
  "With constant settings, Sync off and the sync master out of the way, for every division of time into blocks and all draws, impulse k sits at p0 + t(k div 2), plus t times Width for odd k; none before the end of the last block is missing or doubled.",
  "all numbers and lengths of blocks, all draws", "Unbounded runs.",
  "surgeosc-snh/src/convolute.rs","surgeosc-snh/src/process.rs")
p("With Sync off the sample-and-hold oscillator is not synced",
  "With Sync off the master does not disturb the wave. Refuted: the loop asks for the master's position whatever Sync is, so at the start of every note the first level lasts no time at all - the second impulse falls on the same place and starts a second cycle. After the first block, blocks no longer than it are undisturbed.",
  "all settings, draws, note starts", "Needs every draw and setting.",
  "surgeosc-snh/src/process.rs","surgeosc-snh/src/convolute.rs","surgeosc-snh/src/set_pitch.rs")
p("Hard sync of the sample-and-hold oscillator",
  "With Sync on, for all settings, states and draws, the master ticks every master period; at each tick inside the block there is an impulse exactly at the tick, and when the slave was later than the tick this impulse starts a new cycle with the current Width; the next tick is one master period later.",
  "all settings, states, draws", "Real-valued phases and unbounded numbers of ticks.",
  "surgeosc-snh/src/convolute.rs","surgeosc-snh/src/process.rs")
p("A block of the sample-and-hold oscillator always ends",
  "For every settings and state with positive periods there is a number of rounds after which the impulse loop of a block has ended, whatever the random draws, and it leaves a state in range.",
  "all settings, states, draws", "Termination for all draws.",
  "surgeosc-snh/src/process.rs","surgeosc-snh/src/convolute.rs")
p("Every impulse of the sample-and-hold oscillator is the band-limited impulse of the table",
  "An impulse adds its height times the twelve interpolated table entries to twelve samples. Refuted: the code loads four lanes from a copy of a single entry, so only samples 0, 4 and 8 get the table's values; each of the other nine can get any value at all, depending on what lies behind the copy. The buffer is never overrun.",
  "all tables, heights, positions, buffers, memory contents", "Depends on stack contents a test cannot control.",
  "surgeosc-snh/src/convolute.rs")
p("Oscillator drift is a slow random walk",
  "The drift of a voice wanders: each block's value depends on the earlier ones. Refuted for the sample-and-hold oscillator: the walk's state is passed by value and never written, so after any number of blocks the drift is one fresh draw times sqrt(1e-5), less than 1/316, and the walk is where it began.",
  "all sequences of draws", "A statement about all random sequences.",
  "surge-math/src/correlated_noise.rs","surgeosc-snh/src/process.rs")
p("The sample-and-hold oscillator can play unison",
  "A unison count above one gives that many detuned voices. Refuted: the count is read as an integer when the oscillator is set up and as a float when a voice sounds; with every value of the parameter either the set-up panics (as with the default), or there is one voice, or every voice panics when it sounds.",
  "all parameter values", "Needs all values of both types.",
  "surgeosc-snh/src/init.rs","surgeosc-snh/src/convolute.rs","surgeosc-snh/src/param.rs")
p("Sample-and-hold settings stay in range",
  "After a note start with any parameter values and any later history of them, with Correlation inside its range, the smoothed settings stay in the range the other properties ask for: sync at least 0, width within [0.001, 0.999], correlation at most 0.8 in size. The period is positive for every tuning, and at least 1/10 in absolute mode.",
  "all histories of parameter values", "Histories of any length.",
  "surgeosc-snh/src/update.rs","surgeosc-snh/src/process.rs","surgeosc-snh/src/convolute.rs")
p("The sample-and-hold output is bounded and leaks",
  "For every sequence of samples the output of the leaky integrator stays within max(|start|, 1000 M) when what is fed in is at most M in size; with nothing fed in it falls geometrically at the block's high-pass gain, which is below 0.999. With FM on, a block panics (null pointer).",
  "all sample sequences", "Signals of any length.",
  "surgeosc-snh/src/process.rs","surgeosc-snh/src/update.rs","surgeosc-snh/src/new.rs")
p("The nonlinear biquad voice filters are stable biquads with the right response",
  "For every filter type, note, resonance (any number) and sample rate, the coefficients of the nonlinear feedback and nonlinear states filters are the same, both poles lie inside the unit circle, and the gain is 1/0 at DC and 0/1 at the Nyquist frequency for lowpass/highpass, 0 at both for bandpass, 1 at both for notch and allpass. At the centre the gain is the resonance (lowpass, highpass, bandpass), 0 (notch), 1 (allpass, everywhere). The resonance lies in [0.1, 18.1] and rises with its knob; the makeup gain is 1 except for lowpass and highpass, where it is the subtype's constant over the tenth root of the normalized frequency.",
  "all types, subtypes, notes, resonances, sample rates, frequencies", "Real-valued parameters; every frequency.",
  "surgefilter-nlfeedback/src/coeff.rs","surgefilter-nlstates/src/coeff.rs","surgefilter-nlfeedback/src/nlff.rs")
p("The nonlinear feedback filter is a chain of biquads that feed back their saturated output",
  "For every subtype (four saturators, one to four stages), coefficients, input signal and length, from a cleared state each stage's output is b0 x[n] + b1 x[n-1] + b2 x[n-2] - a1 s(o[n-1]) - a2 s(o[n-2]), where s is the saturator, and the next stage gets that times the makeup gain. No subtype number panics.",
  "all subtypes, coefficients, signals, lengths", "Signals of any length.",
  "surgefilter-nlfeedback/src/process.rs","surgefilter-nlfeedback/src/nlff.rs")
p("The nonlinear feedback filter is bounded whatever its coefficients",
  "With the Tanh, Soft and Ojd saturators, for all coefficients within M (stable or not, gliding or not) and every signal within X, the output stays within a bound that depends on M, X and the number of stages only.",
  "all coefficient paths, signals, lengths", "All signals and coefficient paths of any length.",
  "surgefilter-nlfeedback/src/process.rs")
p("The nonlinear feedback filter is bounded with the sine saturator",
  "A bounded signal gives a bounded output. Refuted: the fast sine grows like -26 x away from 0, so with lowpass, highpass, bandpass or notch coefficients with |a1| >= 1, one sample of size at least 40/|b0| followed by silence gives an output that grows by a factor of at least 18 at every sample, for ever.",
  "all such coefficients, samples, lengths", "Divergence over unbounded time for all coefficients.",
  "surgefilter-nlfeedback/src/nlff.rs","surge-math/src/fast.rs")
p("The Ojd saturator bends the signal",
  "Silence in is silence out, and the filter has feedback. Refuted: the first arm of the match takes every input up to 1.7 to -1, so below 1.7 there is no feedback at all (the output is the three-tap sum plus a1 + a2), and silence gives a constant (a1 + a2) times the makeup gain.",
  "all coefficients, signals, lengths", "All signals below the threshold.",
  "surgefilter-nlfeedback/src/nlff.rs")
p("Polarity and silence in the nonlinear feedback filter",
  "With the Tanh, Soft and Sine saturators, turning the input and the state upside down turns the output upside down, for every subtype, state, glide and signal; and from a cleared state silence gives silence.",
  "all subtypes, states, glides, signals", "All signals and states.",
  "surgefilter-nlfeedback/src/process.rs")
p("The nonlinear states filter filters",
  "The output depends on earlier input through the filter's states. Refuted: after the new states are stored they are overwritten with the saturated old ones, so from a cleared state each sample is only multiplied by b0 once per stage, for every type, coefficients, glide and signal; a state left in the registers just dies away. Every subtype number with bit 3 set panics.",
  "all subtypes, coefficients, glides, signals", "All signals and coefficients.",
  "surgefilter-nlstates/src/process.rs","surgefilter-nlstates/src/nlsf_saturator.rs")
p("The Runge-Kutta ladder's saturation, coefficients and glide",
  "The saturation is odd, nondecreasing, within [-2, 2] and exactly 2 from 3 on. For every note, resonance (any number) and sample rate the cutoff lies between 5 Hz and 0.3 of the sample rate and the feedback in its range; after each sample the coefficients have moved by exactly one glide step.",
  "all numbers, notes, resonances, sample rates", "Real-valued parameters.",
  "surgefilter-rungekutta/src/runge_kutta_coeff.rs","surgefilter-rungekutta/src/runge_kutta_process.rs")
p("The Runge-Kutta ladder is bounded, treats both polarities alike and is silent on silence",
  "For every input signal (any size), resonance and gain compensation (any numbers, gliding), as long as the cutoff is in its range, the four stages stay within 6 and the output within 14.76. Turning input and state upside down turns the output upside down, and a cleared filter fed with silence is silent.",
  "all signals, glides, lengths", "Signals of any length and any resonance.",
  "surgefilter-rungekutta/src/runge_kutta_process.rs")
p("The Runge-Kutta ladder integrates with the fourth-order method",
  "Each sub-step is a classical fourth-order Runge-Kutta step. Refuted: the fourth slope is taken half a step ahead instead of a full step, so on the linear decay the step is only first-order accurate; the difference from the classical step is described for every step size.",
  "all step sizes and states", "All real states.",
  "surgefilter-rungekutta/src/runge_kutta_process.rs")
p("The Huovilainen ladder is the textbook ladder",
  "For every note, resonance (any number) and sample rate the cutoff lies between 5 Hz and 0.3 of the oversampled rate and the tuning and feedback factors in their ranges; the resonance is the knob's value from 0 to 0.93. Each of the four passes per sample is one step of four one-pole stages with saturated differences, fed back with half a sample of delay; a sample moves the coefficients by exactly one glide step.",
  "all notes, resonances, sample rates, states, inputs", "Real-valued parameters and states.",
  "surgefilter-huovilainen/src/huovilainen_coeff.rs","surgefilter-huovilainen/src/huovilainen_process.rs")
p("The Huovilainen ladder is bounded and does not overshoot without resonance",
  "For every input signal (any size), resonance and gain compensation, gliding or not, from a cleared filter the output stays within 492000. With the resonance at 0, stages never exceed the size of the input, and the output never exceeds 2.46 times it.",
  "all signals, glides, lengths", "Signals of any length.",
  "surgefilter-huovilainen/src/huovilainen_process.rs")
p("Polarity and silence in the Huovilainen ladder",
  "Turning the input and the state upside down turns the output upside down, for every state, glide and signal; a cleared filter fed with silence is silent, at any resonance.",
  "all states, glides, signals", "All signals and states.",
  "surgefilter-huovilainen/src/huovilainen_process.rs")
p("The IIR filter structures realise the designed biquad",
  "For every stable design, gain and signal, the normalised lattice at rest with its clip gain at 0 puts out exactly the solution of the design's difference equation; for every design with complex poles so does the coupled form; the four-pole filters are two of them in a row.",
  "all designs, gains, signals", "Signals of any length, all real designs.",
  "surgefilter-iir/src/lattice.rs","surgefilter-iir/src/coupled.rs","surgefilter-iir/src/quad_iir_12_b.rs","surgefilter-iir/src/quad_iir_12_CFC.rs","surgefilter-iir/src/quad_iir_24_B.rs","surgefilter-iir/src/quad_iir_24_CFG.rs","surgefilter-iir/src/quad_iir_12_a.rs")
p("An IIR filter is tuned to its note",
  "The low-, band- and high-pass designs are the cookbook designs for the note's frequency, and the band-reject filter rejects it. Refuted: the sine and cosine the tuner returns are bound the wrong way round, so a filter set to the frequency f is the one for a quarter of the oversampled rate minus f; the band-reject filter lets its note through unless it is an eighth of the rate.",
  "all types, subtypes, notes, resonances", "Real-valued frequencies.",
  "surgefilter-iir/src/iir.rs","surgefilter-iir/src/bandreject.rs","surge-tuning/src/tuner.rs")
p("The IIR designs are stable",
  "Every design with a positive bandwidth number has its poles inside the unit circle. True below a quarter of the oversampled rate; refuted above it (the cutoff limit, note 75, is 33.5 kHz): a pole lies outside, the energy in the coupled form's states is multiplied by a2 > 1 at every silent sample, and the lattice's never falls.",
  "all types, subtypes, notes, resonances, lengths", "All frequencies; unbounded time.",
  "surgefilter-iir/src/iir.rs","surgefilter-iir/src/coeffs.rs")
p("The IIR filters are bounded while they glide",
  "With poles within radius rho < 1 at both ends of a glide of any length, the four coupled-form filters' states stay within X/(1-rho) and their outputs within a fixed multiple, clipping and limiting included. The lattice stores no more energy than was put in when it is gliding with all coefficients moved on first, and when it is clipped with fixed coefficients. Refuted for the lattice in use while gliding: half of each rotation uses the old coefficients, which creates energy.",
  "all glides, signals, lengths, limiter states", "Signals and glides of any length.",
  "surgefilter-iir/src/quad_iir_12_a.rs","surgefilter-iir/src/quad_iir_12_b.rs","surgefilter-iir/src/quad_iir_24_B.rs","surgefilter-iir/src/quad_iir_12_CFC.rs","surgefilter-iir/src/quad_iir_24_CFG.rs","surgefilter-iir/src/quad_iir_12_CFL.rs","surgefilter-iir/src/quad_iir_24_CFL.rs")
p("The IIR resonance maps",
  "For every resonance from 0 to 1 and every note the bandwidth number lies in its subtype's range and never rises with the resonance; for Medium and Rough the resonance is unchanged up to note 58 and gone from note 78 on.",
  "all resonances, notes, subtypes", "Real-valued parameters.",
  "surgefilter-iir/src/reso.rs")
p("Every setting of an IIR filter gives coefficients",
  "No setting makes a coefficient infinite or not a number. Refuted: the band-pass divides by the bandwidth number, which crosses 0 on its way to self-oscillation: on the Medium two-pole filter at resonance 0.9 for every note up to 58, whatever the tuning. All other settings give coefficients.",
  "all types, subtypes, notes, resonances", "Real-valued parameters.",
  "surgefilter-iir/src/coeffs.rs","surgefilter-iir/src/reso.rs")
p("Starting an IIR filter",
  "Every subtype can be processed and remembers its input from the first sample on. Refuted: the subtype SVF panics; the clip register starts at 0, so the clipping filters forget the first sample; the limiting filters' poles open from radius 0 as 1 - 0.999^n. The clip register otherwise lies in [0.1, 1] and falls with the size of the output.",
  "all subtypes, coefficients, signals", "All signals; unbounded time.",
  "surgefilter-iir/src/iir_process_quad.rs","surgefilter-iir/src/quad_iir_12_CFC.rs","surgefilter-iir/src/quad_iir_12_CFL.rs")
p("Polarity and silence in the IIR filters",
  "Turning the signal and the state upside down turns the output of every IIR filter upside down, and silence in a cleared filter is silence out, whatever the coefficients, the glide and the clip register.",
  "all states, glides, signals", "All signals and states.",
  "surgefilter-iir/src/quad_iir_12_b.rs","surgefilter-iir/src/quad_iir_12_CFC.rs","surgefilter-iir/src/quad_iir_12_CFL.rs")
p("The OB-Xd two-pole filter closes its feedback exactly",
  "For every sample, state, tuning and resonance the filter's input, its two integrators and its state-dependent damping satisfy the delay-free loop equation, which has no other solution; the division never meets a denominator below 0.99.",
  "all samples, states, coefficients", "Real-valued states and coefficients.",
  "surgefilter-obxd/src/obxd.rs","surgefilter-obxd/src/process_2pole.rs")
p("The OB-Xd two-pole filter stores no more than it is given",
  "At every sample the energy in the two integrators changes by 4g times band-pass times (input minus twice damping times band-pass); with resonance up to 0.996 (0.961 in the push modes) the energy after any run is at most that at the start plus g/(2 delta) times the sum of the squared inputs.",
  "all signals, lengths, coefficients, states", "Signals of any length.",
  "surgefilter-obxd/src/process_2pole.rs","surgefilter-obxd/src/obxd.rs")
p("The OB-Xd push modes oscillate by themselves and the others do not",
  "At full resonance and silent input a push mode never loses energy while the first state lies in [-6, 3.5] and never gains any while it lies beyond [-7, 4]; without push the energy never rises in silence with resonance up to 0.9965.",
  "all states, tunings, lengths", "Unbounded time.",
  "surgefilter-obxd/src/process_2pole.rs","surgefilter-obxd/src/obxd.rs")
p("The OB-Xd two-pole subtypes",
  "Subtypes 0 to 3 and their push variants 4 to 7 put out low-pass, band-pass, high-pass and notch of the note's frequency limited to 22 kHz; a constant is passed by the low-pass, halved by the notch and stopped by the others, for ever.",
  "all subtypes, notes, resonances, samples, lengths", "All real parameters; unbounded time.",
  "surgefilter-obxd/src/coeff.rs","surgefilter-obxd/src/process_2pole.rs")
p("The OB-Xd four-pole filter is four one-poles in a delay-free loop",
  "For every sample and state the four stages are delay-free one-poles in series, the first of which is squeezed through an arc tangent, and their input is the sample minus the resonance times the fourth output. Refuted while the tuning glides: the loop is solved with the new tuning and run with the old.",
  "all samples, states, coefficients, glides", "Real-valued states and coefficients.",
  "surgefilter-obxd/src/process_4pole.rs","surgefilter-obxd/src/obxd.rs")
p("The OB-Xd four-pole subtypes",
  "Subtypes 0, 1 and 2 put out the first, second and third stage. Refuted for subtype 3, which should put out the fourth: it puts out the sum of the third and the fourth.",
  "all subtypes, notes, resonances, stage outputs", "All real parameters.",
  "surgefilter-obxd/src/coeff.rs","surgefilter-obxd/src/process_4pole.rs")
p("Bounds, polarity and silence of the OB-Xd four-pole filter",
  "Without resonance and tuned below a quarter of the rate, as every note is when the rate is above 88 kHz, no state exceeds the largest of input and initial state and the output 0.6 times that (1.2 for subtype 3); at any resonance and glide inverting the input and state inverts the output, and silence in a cleared filter is silence out; a lane that is not active forgets its first stage at every sample.",
  "all signals, lengths, subtypes, states", "Signals of any length.",
  "surgefilter-obxd/src/process_4pole.rs","surgefilter-obxd/src/coeff.rs")
p("The OB-Xd filters run as voice filters",
  "Every voice filter processes its block. Refuted: the OB-Xd filter's process_quad is unimplemented and panics.",
  "all inputs and states", "Every input.",
  "surgefilter-obxd/src/process.rs")
p("The diode ladder's coefficients",
  "For every note, rate of at least 17 Hz and resonance the filter is tuned by the (approximate) tangent of pi times the frequency over the rate, the frequency limited to 5 Hz .. 0.3 of the rate; its stage gains satisfy the equations of a ladder whose stages are fed from both sides, the loop gain is their product and the resonance 16 times the knob limited to 0..1. Refuted for the gain used by the feedback terms: it should be g and is g / (1 + g), too small at every note.",
  "all notes, rates, resonances", "All real parameters.",
  "surgefilter-diode/src/coeff.rs","surgefilter-diode/src/diode.rs")
p("The diode ladder closes its feedback loop exactly",
  "At every sample the ladder's input is the compensated sample minus the resonance times the ladder's output. True for every state and tuning with the feedback gain that was meant; refuted for the coefficients as they are, at every tuning and every positive resonance.",
  "all states, samples, tunings, resonances", "Real-valued states and coefficients.",
  "surgefilter-diode/src/process_quad.rs","surgefilter-diode/src/lpf.rs","surgefilter-diode/src/coeff.rs")
p("The diode ladder is linear",
  "For all coefficients, glides and lengths the run of a combination of two inputs and states is the combination of the two runs, whatever the processor's approximate reciprocal returns; silence in a cleared filter is silence out.",
  "all pairs of signals, coefficients, glides, lengths", "Signals of any length.",
  "surgefilter-diode/src/process_quad.rs","surgefilter-diode/src/lpf.rs")
p("The diode ladder is stable without resonance",
  "At resonance 0 a bounded input gives a bounded output at every cutoff. Refuted: at every rate there is an admissible cutoff (0.2984 of the oversampled rate) at which a single click into a cleared filter grows beyond every bound.",
  "all rates, cutoffs, lengths", "Unbounded time.",
  "surgefilter-diode/src/coeff.rs","surgefilter-diode/src/process_quad.rs")
p("The K35 filter's coefficients describe a usable filter",
  "For every note, resonance and saturation the cutoff lies between 5 Hz and 0.3 of the oversampled rate and is warped to a positive tuning, the feedback gain lies in 0.01..1.96 (1.96 times the knob, limited), the loop's divisor is at least 0.51, and the clean and driven shares add up to 1.",
  "all notes, rates above 50/3 Hz, resonances, saturations, both modes", "All real parameters.",
  "surgefilter-k35/src/coeff.rs","surgefilter-k35/src/k35.rs")
p("The K35 filter closes its feedback without delay",
  "Each stage is a trapezoidal one-pole. With the coefficients made by coeff_make the low-pass text computes, for every state and sample, u = first low-pass + high-pass of k times the second low-pass of u itself, and the high-pass text the mirrored loop: no sample of delay in the loop.",
  "all states, samples, tunings, resonances", "Real-valued states and coefficients.",
  "surgefilter-k35/src/coeff.rs","surgefilter-k35/src/k35.rs","surgefilter-k35/src/lowpass.rs","surgefilter-k35/src/highpass.rs")
p("The clean K35 filter stores no more than it is given",
  "After any run what the three registers hold is bounded by what they held before and the energy of the input, at every resonance; in silence, with the input stage at rest, the low-pass's ringing energy falls by exactly 4g(2-k) times the square of every output.",
  "all signals, lengths, states, tunings, resonances", "Signals of any length.",
  "surgefilter-k35/src/coeff.rs","surgefilter-k35/src/lowpass.rs","surgefilter-k35/src/highpass.rs")
p("The K35 low-pass passes a constant and the high-pass stops it",
  "In every state that a constant input leaves as it is the low-pass puts out that constant and the high-pass 0; such states exist for every constant.",
  "all constants, tunings, resonances, states", "All real constants and states.",
  "surgefilter-k35/src/lowpass.rs","surgefilter-k35/src/highpass.rs")
p("A fully driven K35 filter is bounded whatever comes in",
  "With saturation 1 or more every output of the low-pass stays within 2.0008 and k times every output of the high-pass within 1.0004, for every input signal.",
  "all signals, lengths, tunings, resonances, saturations of at least 1", "Signals of any length and size.",
  "surgefilter-k35/src/lowpass.rs","surgefilter-k35/src/highpass.rs")
p("A voice can use the K35 filter",
  "Running the filter on a block gives output. Refuted: process_quad is todo!() and panics for every input.",
  "all states and inputs", "All states and inputs.",
  "surgefilter-k35/src/process.rs")
p("A wavetable oscillator can be created",
  "Creating a wavetable oscillator succeeds with one unison voice. Refuted: the default voice count is a float and reading it as an integer panics, and setting the pitch on a table of one frame, such as the default one, underflows. An integer count gives exactly that count within 1..16.",
  "all tables of fewer than two frames, all morph positions, all integer counts", "All integers and all reals.",
  "surgeosc-wavetable/src/new.rs","surgeosc-wavetable/src/init.rs","surgeosc-wavetable/src/set_pitch.rs","surgeosc-wavetable/src/param.rs")
p("The wavetable oscillator's frame follows the morph knob",
  "At a note's start the frame and fraction stand at morph times (frames - 1) times 0.99999, and later blocks either stand there or stay at an end of the frame pair; the level interpolates the two frames. Refuted: once exactly on a frame every later movement below it is ignored however long; a one-frame table panics; and after a move down an impulse at the start of a block panics.",
  "all frame counts, morph positions and histories, positions in the block", "All real positions and all histories.",
  "surgeosc-wavetable/src/set_pitch.rs","surgeosc-wavetable/src/process/update_tables.rs","surgeosc-wavetable/src/convolute/get.rs")
p("The wavetable oscillator's level is the table's sample, shaped",
  "Skew and saturation keep full levels full, stay within -1..1, are odd without skew, and skew alone is increasing. Refuted as a reading of the table: the 16-bit samples are used without scaling, so the level is only the sign of the sample.",
  "all samples, skews, saturations", "All integers and reals.",
  "surgeosc-wavetable/src/update.rs","surgeosc-wavetable/src/convolute/get.rs")
p("The wavetable oscillator picks a mipmap level that exists",
  "The chosen level is 0..6, leaves at least two cells, keeps impulses less than 1.8 samples apart, and the next one would not. Refuted: a table with one level, such as the default, panics whenever the period is below 0.9 of its length.",
  "all table lengths, all periods", "All lengths and real periods.",
  "surgeosc-wavetable/src/convolute/blitstate_zero.rs","surgeosc-wavetable/src/convolute/get.rs")
p("The wavetable oscillator's impulses add up to its level",
  "In a finished block the heights of the impulses sum to the change of the voice's level, each lies in the block, the loop ends only past the block's end, and levels within -1..1 stay there, so no impulse exceeds 2.",
  "all tables, settings, voices and numbers of impulses", "Loops of any length.",
  "surgeosc-wavetable/src/convolute/convolute.rs","surgeosc-wavetable/src/process/nofm.rs")
p("Unison voices of the wavetable oscillator are spread over the stereo field",
  "In mono each impulse adds its height through the twelve taps. Refuted in stereo: both channels are given the left gain, so for every panning both carry the same signal at every sample, and a voice panned hard right is not heard at all.",
  "all impulses, voices, pans, blocks", "Runs of any length.",
  "surgeosc-wavetable/src/convolute/convolute.rs","surgeosc-wavetable/src/convolute/stereo.rs","surgeosc-wavetable/src/convolute/mono.rs","surgeosc-wavetable/src/process/block.rs")
p("Formant and horizontal skew of the wavetable oscillator do not change the pitch",
  "The impulses of a cycle visit the positions of the table in order and their advances add up to exactly one period for every formant and skew; with formant ratio at most 1 and skew in -1..1 none is negative. Refuted as tuning: without detune the period is 1/1024 of the note's.",
  "all power-of-two tables, mipmap levels, formants, skews", "Cycles of any length and all real settings.",
  "surgeosc-wavetable/src/convolute/convolute.rs","surgeosc-wavetable/src/convolute/blitstate_zero.rs")
p("The window oscillator plays the unison voices asked for",
  "A window oscillator set to several unison voices plays that many. Refuted: the number of voices is limited to one less than a maximum of two, so for every requested count exactly one is played.",
  "all requested voice counts", "All integers.",
  "surgeosc-window/src/init.rs","surgeosc-window/src/process_cfg.rs")
p("The window oscillator's morph knob picks a frame that exists",
  "The frame is between 0 and the last, it is the one whose equal share of the knob's travel the knob is in, and it never goes down when the knob goes up. Refuted for the window shape: with a table of one window, as the default one, choosing any window other than the first panics. A wave table longer than the window's also panics.",
  "all frame counts and morph positions; all window choices, table sizes and increments", "All reals and integers.",
  "surgeosc-window/src/access.rs","surgeosc-window/src/subosc.rs")
p("The window oscillator uses a smaller mipmap level for a higher note",
  "The mipmap level grows with the logarithm of the increment. Refuted: it follows the trailing zero bits of the increment, so every increment whose triple is not divisible by 2^18 plays the base level however high the note is.",
  "all increments and all table lengths of two or more cells", "All integers.",
  "surgeosc-window/src/subosc.rs","surge-math/src/scan.rs")
p("The window oscillator's phase does not drift",
  "After any number of samples the position is the start plus that many increments, modulo the window; the frame and formant of the block are taken over at a window's start and only there; without formant shift wave and window are read at the same position. A table of 2^16 samples panics.",
  "all window lengths below 2^16, all increments, all starts, any number of samples", "Runs of any length.",
  "surgeosc-window/src/process_block.rs","surgeosc-window/src/access.rs","surgeosc-window/src/init.rs")
p("The window oscillator is in tune",
  "The frequency of the windows at the oversampled rate is at most the note's and less than one phase step below it. The formant factor is the ratio of wave to window scaled by the table lengths, rounded down, and exactly one without shift.",
  "all note frequencies, sample rates and window lengths", "All reals.",
  "surgeosc-window/src/process.rs")
p("The window oscillator's output is its table times its window",
  "Every wave sample is read from the table and every output sample is the scaled sum at its own time. Refuted: the first sample of the table is used as its address, so the address read does not depend on the table's; and at the end of a block all 64 samples are replaced by conversions of the first four, the later ones of already converted values.",
  "all tables, positions, blocks of 64 samples, conversions", "All contents.",
  "surgeosc-window/src/access.rs","surgeosc-window/src/process.rs")
out=os.path.join(os.path.dirname(os.path.abspath(__file__)),"..","properties.jsonl")
with open(out,"w") as f:
    for x in P: f.write(json.dumps(x,ensure_ascii=False)+"\n")
print(len(P))
