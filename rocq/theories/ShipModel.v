(** The parameters the crates ship: every #[synth_parameters] enum with its default, minimum, maximum, control type and
    value type, and every typed read of a parameter (pvalf!, pvali!, pvalb!, pvalminf!, pvalmaxf!, returnlevel).
    Generated from /repo by tools/gen_ship.py.

    - A literal is kept as an integer or as an exact fraction; products such as -2.5 * 12.0 are multiplied out (they are exact in
      binary32).  The vocoder's two default frequencies go through libm's log2 and are arbitrary values LLib 0, LLib 1
      (surgefx-vocoder/src/constants.rs:30-36).
    - Enums whose traits come from impl_trait_defaults!, or whose impl blocks are empty, get the trait defaults: Float(0.5) in
      Float(0.0)..Float(1.0), ControlType::Nil, VtFloat (surge-param/src/default_value.rs:3-6, extreme_values.rs:3-11,
      control_type.rs:3-7, get_value_type.rs:3-6).
    - Snap and extend_range delegates are the trait defaults and not used by the theorems.
    Definitions only; theorems in ShipProps.v. *)
From Coq Require Import String Reals.
From Verif Require Import Base Util F32 BlockModel MathModel ParamModel.
Local Open Scope Z_scope. Local Open Scope string_scope.

Inductive slit := LInt (z : Z) | LFlt (n d : Z) | LLib (k : Z).
Record ship := mk_ship { sh_enum : string; sh_name : string; sh_ctype : ctype; sh_default : slit; sh_min : slit; sh_max : slit; sh_float_vt : bool }.
(** the delegate of a parameter: surge-param/src/pdata.rs:3-8 for the values; lib gives the libm results *)
Definition slit_val {T} (A : numops T) (lib : Z -> T) (l : slit) : pdata T :=
  match l with LInt z => PInt z | LFlt n d => PFloat (ar_lit A n d) | LLib k => PFloat (lib k) end.
Definition ship_desc {T} (A : numops T) (lib : Z -> T) (s : ship) : pdesc T :=
  {| pd_min := slit_val A lib (sh_min s); pd_max := slit_val A lib (sh_max s); pd_default := slit_val A lib (sh_default s);
     pd_ctype := sh_ctype s; pd_snap := false; pd_extend := false; pd_float_vt := sh_float_vt s |}.
(** a typed read: what is read (the current value, the minimum or the maximum) and as which type.
    surge-param/src/pval.rs:9-66, pdata.rs:10-29: try_into panics on any other kind *)
Inductive rkind := KInt | KBool | KFloat.
Inductive rwhat := RdVal | RdMin | RdMax.
Record sread := mk_read { rd_enum : string; rd_name : string; rd_kind : rkind; rd_what : rwhat; rd_at : string }.
Definition kind_ok {T} (k : rkind) (v : pdata T) : bool :=
  match k, v with KInt, PInt _ => true | KBool, PBool _ => true | KFloat, PFloat _ => true | _, _ => false end.
Definition do_read {T} (r : sread) (p : param T) : res (pdata T) :=
  let v := match rd_what r with RdVal => pm_val p | RdMin => pd_min (pm_desc p) | RdMax => pd_max (pm_desc p) end in
  if kind_ok (rd_kind r) v then Ok v else Panic.

(** surge-adsr/src/param.rs:4- (variants), all trait defaults *)
Definition ship_AdsrParam : list ship := [
  mk_ship "AdsrParam" "Attack" CtNil (LFlt (1) 2) (LFlt (0) 1) (LFlt (1) 1) true;
  mk_ship "AdsrParam" "Decay" CtNil (LFlt (1) 2) (LFlt (0) 1) (LFlt (1) 1) true;
  mk_ship "AdsrParam" "Sustain" CtNil (LFlt (1) 2) (LFlt (0) 1) (LFlt (1) 1) true;
  mk_ship "AdsrParam" "Release" CtNil (LFlt (1) 2) (LFlt (0) 1) (LFlt (1) 1) true;
  mk_ship "AdsrParam" "AttackShape" CtNil (LFlt (1) 2) (LFlt (0) 1) (LFlt (1) 1) true;
  mk_ship "AdsrParam" "DecayShape" CtNil (LFlt (1) 2) (LFlt (0) 1) (LFlt (1) 1) true;
  mk_ship "AdsrParam" "ReleaseShape" CtNil (LFlt (1) 2) (LFlt (0) 1) (LFlt (1) 1) true;
  mk_ship "AdsrParam" "Mode" CtNil (LFlt (1) 2) (LFlt (0) 1) (LFlt (1) 1) true].
(** surge-lfo/src/param.rs:20- (variants), all trait defaults *)
Definition ship_LfoParam : list ship := [
  mk_ship "LfoParam" "Rate" CtNil (LFlt (1) 2) (LFlt (0) 1) (LFlt (1) 1) true;
  mk_ship "LfoParam" "Shape" CtNil (LFlt (1) 2) (LFlt (0) 1) (LFlt (1) 1) true;
  mk_ship "LfoParam" "StartPhase" CtNil (LFlt (1) 2) (LFlt (0) 1) (LFlt (1) 1) true;
  mk_ship "LfoParam" "Magnitude" CtNil (LFlt (1) 2) (LFlt (0) 1) (LFlt (1) 1) true;
  mk_ship "LfoParam" "Deform" CtNil (LFlt (1) 2) (LFlt (0) 1) (LFlt (1) 1) true;
  mk_ship "LfoParam" "Trigmode" CtNil (LFlt (1) 2) (LFlt (0) 1) (LFlt (1) 1) true;
  mk_ship "LfoParam" "Unipolar" CtNil (LFlt (1) 2) (LFlt (0) 1) (LFlt (1) 1) true;
  mk_ship "LfoParam" "Delay" CtNil (LFlt (1) 2) (LFlt (0) 1) (LFlt (1) 1) true;
  mk_ship "LfoParam" "Hold" CtNil (LFlt (1) 2) (LFlt (0) 1) (LFlt (1) 1) true;
  mk_ship "LfoParam" "Attack" CtNil (LFlt (1) 2) (LFlt (0) 1) (LFlt (1) 1) true;
  mk_ship "LfoParam" "Decay" CtNil (LFlt (1) 2) (LFlt (0) 1) (LFlt (1) 1) true;
  mk_ship "LfoParam" "Sustain" CtNil (LFlt (1) 2) (LFlt (0) 1) (LFlt (1) 1) true;
  mk_ship "LfoParam" "Release" CtNil (LFlt (1) 2) (LFlt (0) 1) (LFlt (1) 1) true].
(** surge-qfunit/src/waveshaper.rs:12- (variants), all trait defaults *)
Definition ship_WaveshaperParam : list ship := [
  mk_ship "WaveshaperParam" "Type" CtNil (LFlt (1) 2) (LFlt (0) 1) (LFlt (1) 1) true;
  mk_ship "WaveshaperParam" "Drive" CtNil (LFlt (1) 2) (LFlt (0) 1) (LFlt (1) 1) true].
(** surge-scene/src/patch/param.rs:4- (variants), 17-19, 21-23, 33-35, 29-31, 37-39 *)
Definition ship_PatchParam : list ship := [
  mk_ship "PatchParam" "SceneActive" CtNil (LFlt (1) 2) (LFlt (0) 1) (LFlt (1) 1) true;
  mk_ship "PatchParam" "SceneMode" CtNil (LFlt (1) 2) (LFlt (0) 1) (LFlt (1) 1) true;
  mk_ship "PatchParam" "SceneMorph" CtNil (LFlt (1) 2) (LFlt (0) 1) (LFlt (1) 1) true;
  mk_ship "PatchParam" "SplitKey" CtNil (LFlt (1) 2) (LFlt (0) 1) (LFlt (1) 1) true;
  mk_ship "PatchParam" "Volume" CtNil (LFlt (1) 2) (LFlt (0) 1) (LFlt (1) 1) true;
  mk_ship "PatchParam" "PolyLimit" CtNil (LFlt (1) 2) (LFlt (0) 1) (LFlt (1) 1) true;
  mk_ship "PatchParam" "FxBypass" CtNil (LFlt (1) 2) (LFlt (0) 1) (LFlt (1) 1) true;
  mk_ship "PatchParam" "FxDisable" CtNil (LFlt (1) 2) (LFlt (0) 1) (LFlt (1) 1) true;
  mk_ship "PatchParam" "Character" CtNil (LFlt (1) 2) (LFlt (0) 1) (LFlt (1) 1) true].
(** surge-scene/src/scene/param.rs:4- (variants), 99-101, 87-89, 107-109, 91-93, 95-97 *)
Definition ship_SceneParam : list ship := [
  mk_ship "SceneParam" "Pitch" CtNil (LFlt (1) 2) (LFlt (0) 1) (LFlt (1) 1) true;
  mk_ship "SceneParam" "Octave" CtNil (LFlt (1) 2) (LFlt (0) 1) (LFlt (1) 1) true;
  mk_ship "SceneParam" "FmDepth" CtNil (LFlt (1) 2) (LFlt (0) 1) (LFlt (1) 1) true;
  mk_ship "SceneParam" "FmSwitch" CtNil (LFlt (1) 2) (LFlt (0) 1) (LFlt (1) 1) true;
  mk_ship "SceneParam" "Drift" CtNil (LFlt (1) 2) (LFlt (0) 1) (LFlt (1) 1) true;
  mk_ship "SceneParam" "NoiseColour" CtNil (LFlt (1) 2) (LFlt (0) 1) (LFlt (1) 1) true;
  mk_ship "SceneParam" "KeytrackRoot" CtNil (LFlt (1) 2) (LFlt (0) 1) (LFlt (1) 1) true;
  mk_ship "SceneParam" "OscSolo" CtNil (LFlt (1) 2) (LFlt (0) 1) (LFlt (1) 1) true;
  mk_ship "SceneParam" "LevelO1" CtNil (LFlt (1) 2) (LFlt (0) 1) (LFlt (1) 1) true;
  mk_ship "SceneParam" "LevelO2" CtNil (LFlt (1) 2) (LFlt (0) 1) (LFlt (1) 1) true;
  mk_ship "SceneParam" "LevelO3" CtNil (LFlt (1) 2) (LFlt (0) 1) (LFlt (1) 1) true;
  mk_ship "SceneParam" "LevelNoise" CtNil (LFlt (1) 2) (LFlt (0) 1) (LFlt (1) 1) true;
  mk_ship "SceneParam" "LevelRing12" CtNil (LFlt (1) 2) (LFlt (0) 1) (LFlt (1) 1) true;
  mk_ship "SceneParam" "LevelRing23" CtNil (LFlt (1) 2) (LFlt (0) 1) (LFlt (1) 1) true;
  mk_ship "SceneParam" "LevelPfg" CtNil (LFlt (1) 2) (LFlt (0) 1) (LFlt (1) 1) true;
  mk_ship "SceneParam" "MuteO1" CtNil (LFlt (1) 2) (LFlt (0) 1) (LFlt (1) 1) true;
  mk_ship "SceneParam" "MuteO2" CtNil (LFlt (1) 2) (LFlt (0) 1) (LFlt (1) 1) true;
  mk_ship "SceneParam" "MuteO3" CtNil (LFlt (1) 2) (LFlt (0) 1) (LFlt (1) 1) true;
  mk_ship "SceneParam" "MuteNoise" CtNil (LFlt (1) 2) (LFlt (0) 1) (LFlt (1) 1) true;
  mk_ship "SceneParam" "MuteRing12" CtNil (LFlt (1) 2) (LFlt (0) 1) (LFlt (1) 1) true;
  mk_ship "SceneParam" "MuteRing23" CtNil (LFlt (1) 2) (LFlt (0) 1) (LFlt (1) 1) true;
  mk_ship "SceneParam" "SoloO1" CtNil (LFlt (1) 2) (LFlt (0) 1) (LFlt (1) 1) true;
  mk_ship "SceneParam" "SoloO2" CtNil (LFlt (1) 2) (LFlt (0) 1) (LFlt (1) 1) true;
  mk_ship "SceneParam" "SoloO3" CtNil (LFlt (1) 2) (LFlt (0) 1) (LFlt (1) 1) true;
  mk_ship "SceneParam" "SoloNoise" CtNil (LFlt (1) 2) (LFlt (0) 1) (LFlt (1) 1) true;
  mk_ship "SceneParam" "SoloRing12" CtNil (LFlt (1) 2) (LFlt (0) 1) (LFlt (1) 1) true;
  mk_ship "SceneParam" "SoloRing23" CtNil (LFlt (1) 2) (LFlt (0) 1) (LFlt (1) 1) true;
  mk_ship "SceneParam" "RouteO1" CtNil (LFlt (1) 2) (LFlt (0) 1) (LFlt (1) 1) true;
  mk_ship "SceneParam" "RouteO2" CtNil (LFlt (1) 2) (LFlt (0) 1) (LFlt (1) 1) true;
  mk_ship "SceneParam" "RouteO3" CtNil (LFlt (1) 2) (LFlt (0) 1) (LFlt (1) 1) true;
  mk_ship "SceneParam" "RouteNoise" CtNil (LFlt (1) 2) (LFlt (0) 1) (LFlt (1) 1) true;
  mk_ship "SceneParam" "RouteRing12" CtNil (LFlt (1) 2) (LFlt (0) 1) (LFlt (1) 1) true;
  mk_ship "SceneParam" "RouteRing23" CtNil (LFlt (1) 2) (LFlt (0) 1) (LFlt (1) 1) true;
  mk_ship "SceneParam" "VcaLevel" CtNil (LFlt (1) 2) (LFlt (0) 1) (LFlt (1) 1) true;
  mk_ship "SceneParam" "PitchBendRangeDown" CtNil (LFlt (1) 2) (LFlt (0) 1) (LFlt (1) 1) true;
  mk_ship "SceneParam" "PitchBendRangeUp" CtNil (LFlt (1) 2) (LFlt (0) 1) (LFlt (1) 1) true;
  mk_ship "SceneParam" "VcaVelsense" CtNil (LFlt (1) 2) (LFlt (0) 1) (LFlt (1) 1) true;
  mk_ship "SceneParam" "PolyMode" CtNil (LFlt (1) 2) (LFlt (0) 1) (LFlt (1) 1) true;
  mk_ship "SceneParam" "PolyLimit" CtNil (LFlt (1) 2) (LFlt (0) 1) (LFlt (1) 1) true;
  mk_ship "SceneParam" "Portamento" CtNil (LFlt (1) 2) (LFlt (0) 1) (LFlt (1) 1) true;
  mk_ship "SceneParam" "Volume" CtNil (LFlt (1) 2) (LFlt (0) 1) (LFlt (1) 1) true;
  mk_ship "SceneParam" "Pan" CtNil (LFlt (1) 2) (LFlt (0) 1) (LFlt (1) 1) true;
  mk_ship "SceneParam" "Width" CtNil (LFlt (1) 2) (LFlt (0) 1) (LFlt (1) 1) true;
  mk_ship "SceneParam" "SendLevelA" CtNil (LFlt (1) 2) (LFlt (0) 1) (LFlt (1) 1) true;
  mk_ship "SceneParam" "SendLevelB" CtNil (LFlt (1) 2) (LFlt (0) 1) (LFlt (1) 1) true;
  mk_ship "SceneParam" "F2CutoffIsOffset" CtNil (LFlt (1) 2) (LFlt (0) 1) (LFlt (1) 1) true;
  mk_ship "SceneParam" "F2LinkResonance" CtNil (LFlt (1) 2) (LFlt (0) 1) (LFlt (1) 1) true;
  mk_ship "SceneParam" "Feedback" CtNil (LFlt (1) 2) (LFlt (0) 1) (LFlt (1) 1) true;
  mk_ship "SceneParam" "FilterBlockConfiguration" CtNil (LFlt (1) 2) (LFlt (0) 1) (LFlt (1) 1) true;
  mk_ship "SceneParam" "FilterBalance" CtNil (LFlt (1) 2) (LFlt (0) 1) (LFlt (1) 1) true;
  mk_ship "SceneParam" "LowCut" CtNil (LFlt (1) 2) (LFlt (0) 1) (LFlt (1) 1) true].
(** surge-types/src/filter_param.rs:4- (variants), 45-57, 59-71, 73-85, 87-99, 115-127 *)
Definition ship_FilterParam : list ship := [
  mk_ship "FilterParam" "Type" (CtOther 45) (LInt (0)) (LInt (0)) (LInt (1)) true;
  mk_ship "FilterParam" "SubType" (CtOther 46) (LInt (0)) (LInt (0)) (LInt (1)) true;
  mk_ship "FilterParam" "Cutoff" (CtOther 21) (LFlt (1) 2) (LFlt (0) 1) (LFlt (1) 1) true;
  mk_ship "FilterParam" "Resonance" (CtOther 78) (LFlt (1) 2) (LFlt (0) 1) (LFlt (1) 1) true;
  mk_ship "FilterParam" "EnvelopeMode" (CtOther 31) (LFlt (1) 2) (LFlt (0) 1) (LFlt (1) 1) true;
  mk_ship "FilterParam" "KeyTrack" (CtOther 78) (LFlt (1) 2) (LFlt (0) 1) (LFlt (1) 1) true].
(** surge-types/src/oscillator.rs:47- (variants), all trait defaults *)
Definition ship_OscillatorParam : list ship := [
  mk_ship "OscillatorParam" "Type" CtNil (LFlt (1) 2) (LFlt (0) 1) (LFlt (1) 1) true;
  mk_ship "OscillatorParam" "Pitch" CtNil (LFlt (1) 2) (LFlt (0) 1) (LFlt (1) 1) true;
  mk_ship "OscillatorParam" "Octave" CtNil (LFlt (1) 2) (LFlt (0) 1) (LFlt (1) 1) true;
  mk_ship "OscillatorParam" "KeyTrack" CtNil (LFlt (1) 2) (LFlt (0) 1) (LFlt (1) 1) true;
  mk_ship "OscillatorParam" "Retrigger" CtNil (LFlt (1) 2) (LFlt (0) 1) (LFlt (1) 1) true].
(** surgefx-allpass/src/param.rs:4- (variants), 46-63, 65-82, 92-109, 111-128, 130-147 *)
Definition ship_AllpassReverbParam : list ship := [
  mk_ship "AllpassReverbParam" "PreDelay" (CtOther 34) (LFlt (-4) 1) (LFlt (-4) 1) (LFlt (1) 1) true;
  mk_ship "AllpassReverbParam" "RoomSize" (CtOther 2) (LFlt (0) 1) (LFlt (-1) 1) (LFlt (1) 1) true;
  mk_ship "AllpassReverbParam" "DecayTime" (CtOther 33) (LFlt (3) 4) (LFlt (-4) 1) (LFlt (6) 1) true;
  mk_ship "AllpassReverbParam" "Diffusion" (CtOther 1) (LFlt (1) 1) (LFlt (0) 1) (LFlt (1) 1) true;
  mk_ship "AllpassReverbParam" "BuildUp" (CtOther 1) (LFlt (1) 1) (LFlt (0) 1) (LFlt (1) 1) true;
  mk_ship "AllpassReverbParam" "Modulation" (CtOther 1) (LFlt (1) 2) (LFlt (0) 1) (LFlt (1) 1) true;
  mk_ship "AllpassReverbParam" "LFDamping" (CtOther 1) (LFlt (1) 5) (LFlt (0) 1) (LFlt (1) 1) true;
  mk_ship "AllpassReverbParam" "HFDamping" (CtOther 1) (LFlt (1) 5) (LFlt (0) 1) (LFlt (1) 1) true;
  mk_ship "AllpassReverbParam" "Mix" (CtOther 1) (LFlt (33) 100) (LFlt (0) 1) (LFlt (1) 1) true;
  mk_ship "AllpassReverbParam" "Width" (CtOther 1) (LFlt (3) 4) (LFlt (0) 1) (LFlt (1) 1) true;
  mk_ship "AllpassReverbParam" "ReturnLevel" (CtOther 1) (LFlt (3) 4) (LFlt (0) 1) (LFlt (1) 1) true].
(** surgefx-chorus/src/param.rs:4- (variants), 45-60, 62-77, 87-102, 104-119, 121-136 *)
Definition ship_ChorusParam : list ship := [
  mk_ship "ChorusParam" "Time" (CtOther 32) (LFlt (-6) 1) (LFlt (-11) 1) (LFlt (-3) 1) true;
  mk_ship "ChorusParam" "Rate" (CtOther 36) (LFlt (-2) 1) (LFlt (-7) 1) (LFlt (9) 1) true;
  mk_ship "ChorusParam" "Depth" (CtOther 1) (LFlt (3) 10) (LFlt (0) 1) (LFlt (1) 1) true;
  mk_ship "ChorusParam" "Feedback" (CtOther 11) (LFlt (1) 2) (LFlt (0) 1) (LFlt (1) 1) true;
  mk_ship "ChorusParam" "LowCut" (CtOther 21) (LFlt (-36) 1) (LFlt (-60) 1) (LFlt (70) 1) true;
  mk_ship "ChorusParam" "HighCut" (CtOther 21) (LFlt (36) 1) (LFlt (-60) 1) (LFlt (70) 1) true;
  mk_ship "ChorusParam" "Mix" (CtOther 1) (LFlt (1) 1) (LFlt (0) 1) (LFlt (1) 1) true;
  mk_ship "ChorusParam" "Width" (CtOther 14) (LFlt (0) 1) (LFlt (-24) 1) (LFlt (24) 1) true;
  mk_ship "ChorusParam" "ReturnLevel" (CtOther 1) (LFlt (1) 1) (LFlt (0) 1) (LFlt (1) 1) true].
(** surgefx-conditioner/src/param.rs:4- (variants), 45-60, 62-77, 87-102, 104-119, 121-136 *)
Definition ship_ConditionerParam : list ship := [
  mk_ship "ConditionerParam" "Bass" (CtOther 16) (LFlt (0) 1) (LFlt (-12) 1) (LFlt (12) 1) true;
  mk_ship "ConditionerParam" "Treble" (CtOther 16) (LFlt (0) 1) (LFlt (-12) 1) (LFlt (12) 1) true;
  mk_ship "ConditionerParam" "Width" (CtOther 2) (LFlt (0) 1) (LFlt (-1) 1) (LFlt (1) 1) true;
  mk_ship "ConditionerParam" "Balance" (CtOther 2) (LFlt (0) 1) (LFlt (-1) 1) (LFlt (1) 1) true;
  mk_ship "ConditionerParam" "Threshold" (CtOther 17) (LFlt (0) 1) (LFlt (-48) 1) (LFlt (0) 1) true;
  mk_ship "ConditionerParam" "AttackRate" (CtOther 2) (LFlt (0) 1) (LFlt (-1) 1) (LFlt (1) 1) true;
  mk_ship "ConditionerParam" "ReleaseRate" (CtOther 2) (LFlt (0) 1) (LFlt (-1) 1) (LFlt (1) 1) true;
  mk_ship "ConditionerParam" "Gain" (CtOther 17) (LFlt (0) 1) (LFlt (-48) 1) (LFlt (0) 1) true;
  mk_ship "ConditionerParam" "ReturnLevel" (CtOther 1) (LFlt (1) 2) (LFlt (0) 1) (LFlt (1) 1) true].
(** surgefx-distortion/src/param.rs:7- (variants), 52-71, 73-93, 103-122, 124-143, 145-164 *)
Definition ship_DistortionParam : list ship := [
  mk_ship "DistortionParam" "PreGain" CtDecibelExtendable (LFlt (0) 1) (LFlt (-48) 1) (LFlt (48) 1) true;
  mk_ship "DistortionParam" "PreFreq" (CtOther 21) (LFlt (0) 1) (LFlt (-60) 1) (LFlt (70) 1) true;
  mk_ship "DistortionParam" "PreBandwidth" (CtOther 27) (LFlt (2) 1) (LFlt (0) 1) (LFlt (5) 1) true;
  mk_ship "DistortionParam" "PreHighCut" (CtOther 21) (LFlt (0) 1) (LFlt (-60) 1) (LFlt (70) 1) true;
  mk_ship "DistortionParam" "Drive" CtDecibelNarrowExtendable (LFlt (0) 1) (LFlt (-24) 1) (LFlt (24) 1) true;
  mk_ship "DistortionParam" "Feedback" (CtOther 2) (LFlt (0) 1) (LFlt (-1) 1) (LFlt (1) 1) true;
  mk_ship "DistortionParam" "PostGain" CtDecibelExtendable (LFlt (0) 1) (LFlt (-48) 1) (LFlt (48) 1) true;
  mk_ship "DistortionParam" "PostFreq" (CtOther 21) (LFlt (0) 1) (LFlt (-60) 1) (LFlt (70) 1) true;
  mk_ship "DistortionParam" "PostBandwidth" (CtOther 27) (LFlt (2) 1) (LFlt (0) 1) (LFlt (5) 1) true;
  mk_ship "DistortionParam" "PostHighCut" (CtOther 21) (LFlt (0) 1) (LFlt (-60) 1) (LFlt (70) 1) true;
  mk_ship "DistortionParam" "OutGain" (CtOther 14) (LFlt (0) 1) (LFlt (-24) 1) (LFlt (24) 1) true;
  mk_ship "DistortionParam" "Waveshaper" (CtOther 74) (LInt (0)) (LInt (0)) (LInt (6)) false;
  mk_ship "DistortionParam" "ReturnLevel" (CtOther 1) (LFlt (1) 2) (LFlt (0) 1) (LFlt (1) 1) true].
(** surgefx-dualdelay/src/param.rs:4- (variants), 48-66, 68-86, 96-114, 116-134, 136-154 *)
Definition ship_DualDelayParam : list ship := [
  mk_ship "DualDelayParam" "Left" (CtOther 28) (LFlt (-2) 1) (LFlt (-8) 1) (LFlt (5) 1) true;
  mk_ship "DualDelayParam" "Right" (CtOther 28) (LFlt (-2) 1) (LFlt (-8) 1) (LFlt (5) 1) true;
  mk_ship "DualDelayParam" "Feedback" (CtOther 11) (LFlt (0) 1) (LFlt (0) 1) (LFlt (1) 1) true;
  mk_ship "DualDelayParam" "CrossFeed" (CtOther 11) (LFlt (0) 1) (LFlt (0) 1) (LFlt (1) 1) true;
  mk_ship "DualDelayParam" "LowCut" (CtOther 21) (LFlt (-24) 1) (LFlt (-60) 1) (LFlt (70) 1) true;
  mk_ship "DualDelayParam" "HighCut" (CtOther 21) (LFlt (30) 1) (LFlt (-60) 1) (LFlt (70) 1) true;
  mk_ship "DualDelayParam" "Rate" (CtOther 36) (LFlt (-2) 1) (LFlt (-7) 1) (LFlt (9) 1) true;
  mk_ship "DualDelayParam" "Depth" (CtOther 39) (LFlt (0) 1) (LFlt (0) 1) (LFlt (2) 1) true;
  mk_ship "DualDelayParam" "Pan" (CtOther 2) (LFlt (0) 1) (LFlt (-1) 1) (LFlt (1) 1) true;
  mk_ship "DualDelayParam" "Mix" (CtOther 1) (LFlt (1) 1) (LFlt (0) 1) (LFlt (1) 1) true;
  mk_ship "DualDelayParam" "Width" (CtOther 14) (LFlt (0) 1) (LFlt (-24) 1) (LFlt (24) 1) true;
  mk_ship "DualDelayParam" "ReturnLevel" (CtOther 1) (LFlt (1) 2) (LFlt (0) 1) (LFlt (1) 1) true].
(** surgefx-emphasize/src/param.rs:4- (variants), 38-46, 48-56, 66-74, 76-84, 86-94 *)
Definition ship_EmphasizeParam : list ship := [
  mk_ship "EmphasizeParam" "Time" (CtOther 32) (LFlt (-6) 1) (LFlt (-11) 1) (LFlt (-3) 1) true;
  mk_ship "EmphasizeParam" "ReturnLevel" (CtOther 1) (LFlt (1) 2) (LFlt (0) 1) (LFlt (1) 1) true].
(** surgefx-eq3band/src/param.rs:4- (variants), 47-64, 66-83, 92-108, 110-126, 128-144 *)
Definition ship_Eq3BandParam : list ship := [
  mk_ship "Eq3BandParam" "LGain" (CtOther 13) (LFlt (0) 1) (LFlt (-48) 1) (LFlt (48) 1) true;
  mk_ship "Eq3BandParam" "LFreq" (CtOther 21) (LFlt (-30) 1) (LFlt (-60) 1) (LFlt (70) 1) true;
  mk_ship "Eq3BandParam" "LBandwidth" (CtOther 27) (LFlt (2) 1) (LFlt (0) 1) (LFlt (5) 1) true;
  mk_ship "Eq3BandParam" "MGain" (CtOther 13) (LFlt (0) 1) (LFlt (-48) 1) (LFlt (48) 1) true;
  mk_ship "Eq3BandParam" "MFreq" (CtOther 21) (LFlt (6) 1) (LFlt (-60) 1) (LFlt (70) 1) true;
  mk_ship "Eq3BandParam" "MBandwidth" (CtOther 27) (LFlt (2) 1) (LFlt (0) 1) (LFlt (5) 1) true;
  mk_ship "Eq3BandParam" "HGain" (CtOther 13) (LFlt (0) 1) (LFlt (-48) 1) (LFlt (48) 1) true;
  mk_ship "Eq3BandParam" "HFreq" (CtOther 21) (LFlt (54) 1) (LFlt (-60) 1) (LFlt (70) 1) true;
  mk_ship "Eq3BandParam" "HBandwidth" (CtOther 27) (LFlt (2) 1) (LFlt (0) 1) (LFlt (5) 1) true;
  mk_ship "Eq3BandParam" "Gain" (CtOther 13) (LFlt (0) 1) (LFlt (-48) 1) (LFlt (48) 1) true;
  mk_ship "Eq3BandParam" "ReturnLevel" (CtOther 1) (LFlt (1) 2) (LFlt (0) 1) (LFlt (1) 1) true].
(** surgefx-flanger/src/param.rs:4- (variants), 49-68, 70-89, 99-118, 120-139, 141-160 *)
Definition ship_FlangerParam : list ship := [
  mk_ship "FlangerParam" "Rate" (CtOther 36) (LFlt (-2) 1) (LFlt (-7) 1) (LFlt (9) 1) true;
  mk_ship "FlangerParam" "Depth" (CtOther 1) (LFlt (1) 1) (LFlt (0) 1) (LFlt (1) 1) true;
  mk_ship "FlangerParam" "Mode" (CtOther 76) (LInt (0)) (LInt (0)) (LInt (11)) false;
  mk_ship "FlangerParam" "Voices" (CtOther 77) (LInt (4)) (LInt (1)) (LInt (4)) false;
  mk_ship "FlangerParam" "VoiceZeroPitch" (CtOther 75) (LFlt (60) 1) (LFlt (0) 1) (LFlt (127) 1) true;
  mk_ship "FlangerParam" "VoiceDetune" (CtOther 1) (LFlt (0) 1) (LFlt (0) 1) (LFlt (1) 1) true;
  mk_ship "FlangerParam" "VoiceChord" (CtOther 1) (LFlt (0) 1) (LFlt (0) 1) (LFlt (1) 1) true;
  mk_ship "FlangerParam" "Feedback" (CtOther 1) (LFlt (0) 1) (LFlt (0) 1) (LFlt (1) 1) true;
  mk_ship "FlangerParam" "FbLFDamping" (CtOther 1) (LFlt (1) 10) (LFlt (0) 1) (LFlt (1) 1) true;
  mk_ship "FlangerParam" "Gain" (CtOther 2) (LFlt (0) 1) (LFlt (-1) 1) (LFlt (1) 1) true;
  mk_ship "FlangerParam" "StereoWidth" (CtOther 1) (LFlt (0) 1) (LFlt (0) 1) (LFlt (1) 1) true;
  mk_ship "FlangerParam" "Mix" (CtOther 2) (LFlt (4) 5) (LFlt (-1) 1) (LFlt (1) 1) true;
  mk_ship "FlangerParam" "ReturnLevel" (CtOther 1) (LFlt (1) 2) (LFlt (0) 1) (LFlt (1) 1) true].
(** surgefx-freqshift/src/param.rs:4- (variants), 42-54, 56-69, 79-91, 93-104, 106-117 *)
Definition ship_FreqShiftParam : list ship := [
  mk_ship "FreqShiftParam" "Shift" CtFreqShift (LFlt (0) 1) (LFlt (-10) 1) (LFlt (10) 1) true;
  mk_ship "FreqShiftParam" "RMult" (CtOther 2) (LFlt (1) 1) (LFlt (-1) 1) (LFlt (1) 1) true;
  mk_ship "FreqShiftParam" "Delay" (CtOther 28) (LFlt (-8) 1) (LFlt (-8) 1) (LFlt (5) 1) true;
  mk_ship "FreqShiftParam" "Feedback" (CtOther 11) (LFlt (0) 1) (LFlt (0) 1) (LFlt (1) 1) true;
  mk_ship "FreqShiftParam" "Mix" (CtOther 1) (LFlt (1) 1) (LFlt (0) 1) (LFlt (1) 1) true;
  mk_ship "FreqShiftParam" "ReturnLevel" (CtOther 1) (LFlt (1) 2) (LFlt (0) 1) (LFlt (1) 1) true].
(** surgefx-phaser/src/param.rs:4- (variants), 44-58, 60-74, 84-98, 100-114, 116-130 *)
Definition ship_PhaserParam : list ship := [
  mk_ship "PhaserParam" "Base" (CtOther 2) (LFlt (0) 1) (LFlt (-1) 1) (LFlt (1) 1) true;
  mk_ship "PhaserParam" "Feedback" (CtOther 2) (LFlt (0) 1) (LFlt (-1) 1) (LFlt (1) 1) true;
  mk_ship "PhaserParam" "QualityFactor" (CtOther 2) (LFlt (0) 1) (LFlt (-1) 1) (LFlt (1) 1) true;
  mk_ship "PhaserParam" "LFORate" (CtOther 36) (LFlt (0) 1) (LFlt (-7) 1) (LFlt (9) 1) true;
  mk_ship "PhaserParam" "LFODepth" (CtOther 1) (LFlt (0) 1) (LFlt (0) 1) (LFlt (1) 1) true;
  mk_ship "PhaserParam" "Stereo" (CtOther 1) (LFlt (0) 1) (LFlt (0) 1) (LFlt (1) 1) true;
  mk_ship "PhaserParam" "Mix" (CtOther 1) (LFlt (0) 1) (LFlt (0) 1) (LFlt (1) 1) true;
  mk_ship "PhaserParam" "ReturnLevel" (CtOther 1) (LFlt (1) 2) (LFlt (0) 1) (LFlt (1) 1) true].
(** surgefx-reverb/src/param.rs:4- (variants), 48-66, 68-86, 95-113, 115-133, 135-153 *)
Definition ship_ReverbParam : list ship := [
  mk_ship "ReverbParam" "PreDelay" (CtOther 28) (LFlt (-4) 1) (LFlt (-8) 1) (LFlt (5) 1) true;
  mk_ship "ReverbParam" "RoomShape" (CtOther 12) (LInt (0)) (LInt (0)) (LInt (3)) false;
  mk_ship "ReverbParam" "RoomSize" (CtOther 1) (LFlt (1) 2) (LFlt (0) 1) (LFlt (1) 1) true;
  mk_ship "ReverbParam" "DecayTime" (CtOther 33) (LFlt (1) 1) (LFlt (-4) 1) (LFlt (6) 1) true;
  mk_ship "ReverbParam" "Damping" (CtOther 1) (LFlt (1) 5) (LFlt (0) 1) (LFlt (1) 1) true;
  mk_ship "ReverbParam" "LowCut" (CtOther 21) (LFlt (-24) 1) (LFlt (-60) 1) (LFlt (70) 1) true;
  mk_ship "ReverbParam" "Band1Freq" (CtOther 21) (LFlt (0) 1) (LFlt (-60) 1) (LFlt (70) 1) true;
  mk_ship "ReverbParam" "Band1Gain" (CtOther 13) (LFlt (0) 1) (LFlt (-48) 1) (LFlt (48) 1) true;
  mk_ship "ReverbParam" "HighCut" (CtOther 21) (LFlt (72) 1) (LFlt (-60) 1) (LFlt (70) 1) true;
  mk_ship "ReverbParam" "Mix" (CtOther 1) (LFlt (1) 1) (LFlt (0) 1) (LFlt (1) 1) true;
  mk_ship "ReverbParam" "Width" (CtOther 14) (LFlt (0) 1) (LFlt (-24) 1) (LFlt (24) 1) true;
  mk_ship "ReverbParam" "ReturnLevel" (CtOther 1) (LFlt (1) 2) (LFlt (0) 1) (LFlt (1) 1) true].
(** surgefx-ringmod/src/param.rs:4- (variants), 46-62, 64-80, 82-98, 100-116, 118-134 *)
Definition ship_RingModulatorParam : list ship := [
  mk_ship "RingModulatorParam" "CarrierShape" (CtOther 70) (LInt (0)) (LInt (0)) (LInt (0)) false;
  mk_ship "RingModulatorParam" "CarrierFreq" (CtOther 75) (LFlt (60) 1) (LFlt (1) 100) (LFlt (0) 1) true;
  mk_ship "RingModulatorParam" "UnisonDetune" CtOscSpread (LFlt (1) 5) (LFlt (1) 1) (LFlt (0) 1) true;
  mk_ship "RingModulatorParam" "UnisonVoices" (CtOther 49) (LInt (1)) (LInt (1)) (LInt (16)) false;
  mk_ship "RingModulatorParam" "DiodeForwardBias" (CtOther 1) (LFlt (3) 10) (LFlt (0) 1) (LFlt (1) 1) true;
  mk_ship "RingModulatorParam" "DiodeLinearRegion" (CtOther 1) (LFlt (7) 10) (LFlt (0) 1) (LFlt (1) 1) true;
  mk_ship "RingModulatorParam" "LowCut" (CtOther 21) (LFlt (0) 1) (LFlt (0) 1) (LFlt (0) 1) true;
  mk_ship "RingModulatorParam" "HighCut" (CtOther 21) (LFlt (0) 1) (LFlt (0) 1) (LFlt (0) 1) true;
  mk_ship "RingModulatorParam" "Mix" (CtOther 1) (LFlt (1) 1) (LFlt (0) 1) (LFlt (1) 1) true;
  mk_ship "RingModulatorParam" "ReturnLevel" (CtOther 1) (LFlt (1) 1) (LFlt (0) 1) (LFlt (1) 1) true].
(** surgefx-rotary/src/param.rs:4- (variants), 42-52, 54-64, 73-83, 85-95, 97-107 *)
Definition ship_RotarySpeakerParam : list ship := [
  mk_ship "RotarySpeakerParam" "HornRate" (CtOther 36) (LFlt (1) 1) (LFlt (-7) 1) (LFlt (9) 1) true;
  mk_ship "RotarySpeakerParam" "Doppler" (CtOther 1) (LFlt (1) 4) (LFlt (0) 1) (LFlt (1) 1) true;
  mk_ship "RotarySpeakerParam" "AmpMod" (CtOther 1) (LFlt (1) 2) (LFlt (0) 1) (LFlt (1) 1) true;
  mk_ship "RotarySpeakerParam" "ReturnLevel" (CtOther 1) (LFlt (1) 2) (LFlt (0) 1) (LFlt (1) 1) true].
(** surgefx-vocoder/src/param.rs:4- (variants), 47-64, 66-83, 92-109, 111-127, 129-145 *)
Definition ship_VocoderParam : list ship := [
  mk_ship "VocoderParam" "Gain" (CtOther 13) (LFlt (0) 1) (LFlt (-48) 1) (LFlt (48) 1) true;
  mk_ship "VocoderParam" "GateLevel" (CtOther 18) (LFlt (-96) 1) (LFlt (-96) 1) (LFlt (0) 1) true;
  mk_ship "VocoderParam" "Rate" (CtOther 1) (LFlt (0) 1) (LFlt (0) 1) (LFlt (1) 1) true;
  mk_ship "VocoderParam" "UnvoicedThreshold" (CtOther 13) (LFlt (0) 1) (LFlt (-48) 1) (LFlt (48) 1) true;
  mk_ship "VocoderParam" "Quality" (CtOther 2) (LFlt (0) 1) (LFlt (-1) 1) (LFlt (1) 1) true;
  mk_ship "VocoderParam" "NumBands" CtVocoderBandcount (LInt (20)) (LInt (4)) (LInt (20)) false;
  mk_ship "VocoderParam" "FreqLo" (CtOther 25) (LLib 0) (LFlt (-36) 1) (LFlt (36) 1) true;
  mk_ship "VocoderParam" "FreqHi" (CtOther 26) (LLib 1) (LFlt (0) 1) (LFlt (60) 1) true;
  mk_ship "VocoderParam" "ModExpand" (CtOther 2) (LFlt (0) 1) (LFlt (-1) 1) (LFlt (1) 1) true;
  mk_ship "VocoderParam" "ModCenter" (CtOther 2) (LFlt (0) 1) (LFlt (-1) 1) (LFlt (1) 1) true;
  mk_ship "VocoderParam" "ReturnLevel" (CtOther 1) (LFlt (1) 2) (LFlt (0) 1) (LFlt (1) 1) true].
(** surgeosc-audioin/src/param.rs:4- (variants), 37-45, 47-55, 65-73, 75-83, 85-93 *)
Definition ship_AudioInputOscillatorParam : list ship := [
  mk_ship "AudioInputOscillatorParam" "Input" (CtOther 2) (LFlt (0) 1) (LFlt (-1) 1) (LFlt (1) 1) true;
  mk_ship "AudioInputOscillatorParam" "Gain" (CtOther 13) (LFlt (0) 1) (LFlt (-48) 1) (LFlt (48) 1) true].
(** surgeosc-fm/src/param.rs:4- (variants), 42-54, 56-70, 80-93, 95-108, 110-123 *)
Definition ship_FMOscillatorParam : list ship := [
  mk_ship "FMOscillatorParam" "M1Amount" (CtOther 1) (LFlt (0) 1) (LFlt (0) 1) (LFlt (1) 1) true;
  mk_ship "FMOscillatorParam" "M1Ratio" (CtOther 7) (LFlt (1) 1) (LFlt (0) 1) (LFlt (32) 1) true;
  mk_ship "FMOscillatorParam" "M2Amount" (CtOther 1) (LFlt (0) 1) (LFlt (0) 1) (LFlt (1) 1) true;
  mk_ship "FMOscillatorParam" "M2Ratio" (CtOther 7) (LFlt (1) 1) (LFlt (0) 1) (LFlt (32) 1) true;
  mk_ship "FMOscillatorParam" "M3Amount" (CtOther 1) (LFlt (0) 1) (LFlt (0) 1) (LFlt (1) 1) true;
  mk_ship "FMOscillatorParam" "M3Freq" (CtOther 21) (LFlt (0) 1) (LFlt (-60) 1) (LFlt (70) 1) true;
  mk_ship "FMOscillatorParam" "Feedback" (CtOther 1) (LFlt (0) 1) (LFlt (0) 1) (LFlt (1) 1) true].
(** surgeosc-fm2/src/param.rs:4- (variants), 42-55, 57-70, 72-85, 87-100, 102-115 *)
Definition ship_FM2OscillatorParam : list ship := [
  mk_ship "FM2OscillatorParam" "M1Amount" (CtOther 1) (LFlt (0) 1) (LFlt (0) 1) (LFlt (1) 1) true;
  mk_ship "FM2OscillatorParam" "M1Ratio" (CtOther 7) (LInt (1)) (LFlt (0) 1) (LFlt (32) 1) true;
  mk_ship "FM2OscillatorParam" "M2Amount" (CtOther 1) (LFlt (0) 1) (LFlt (0) 1) (LFlt (1) 1) true;
  mk_ship "FM2OscillatorParam" "M2Ratio" (CtOther 7) (LInt (1)) (LFlt (0) 1) (LFlt (32) 1) true;
  mk_ship "FM2OscillatorParam" "MxShift" CtFreqShift (LFlt (0) 1) (LFlt (-10) 1) (LFlt (10) 1) true;
  mk_ship "FM2OscillatorParam" "MxStartPhase" (CtOther 1) (LFlt (0) 1) (LFlt (0) 1) (LFlt (1) 1) true;
  mk_ship "FM2OscillatorParam" "Feedback" (CtOther 1) (LFlt (0) 1) (LFlt (0) 1) (LFlt (1) 1) true].
(** surgeosc-sine/src/param.rs:4- (variants), 38-47, 49-58, 68-77, 79-88, 90-99 *)
Definition ship_SineWaveOscillatorParam : list ship := [
  mk_ship "SineWaveOscillatorParam" "Shape" (CtOther 70) (LInt (0)) (LInt (0)) (LInt (8)) false;
  mk_ship "SineWaveOscillatorParam" "Feedback" (CtOther 1) (LFlt (0) 1) (LFlt (0) 1) (LFlt (1) 1) true;
  mk_ship "SineWaveOscillatorParam" "FMBehavior" (CtOther 71) (LInt (1)) (LInt (0)) (LInt (1)) false].
(** surgeosc-snh/src/param.rs:4- (variants), 42-55, 57-70, 80-93, 95-108, 110-123 *)
Definition ship_SampleAndHoldOscillatorParam : list ship := [
  mk_ship "SampleAndHoldOscillatorParam" "Correlation" (CtOther 2) (LFlt (0) 1) (LFlt (-1) 1) (LFlt (1) 1) true;
  mk_ship "SampleAndHoldOscillatorParam" "Width" (CtOther 1) (LFlt (1) 2) (LFlt (0) 1) (LFlt (1) 1) true;
  mk_ship "SampleAndHoldOscillatorParam" "Smooth" CtNil (LFlt (0) 1) (LInt (-2147483648)) (LInt (2147483647)) false;
  mk_ship "SampleAndHoldOscillatorParam" "Sub" CtNil (LFlt (0) 1) (LInt (-2147483648)) (LInt (2147483647)) false;
  mk_ship "SampleAndHoldOscillatorParam" "Sync_" (CtOther 10) (LFlt (0) 1) (LFlt (0) 1) (LFlt (60) 1) true;
  mk_ship "SampleAndHoldOscillatorParam" "UniSpread" CtOscSpread (LFlt (1) 5) (LFlt (0) 1) (LFlt (1) 1) true;
  mk_ship "SampleAndHoldOscillatorParam" "UniCount" (CtOther 49) (LFlt (1) 1) (LInt (1)) (LInt (16)) false].
(** surgeosc-super/src/params.rs:4- (variants), 43-58, 60-74, 83-97, 99-113, 115-129 *)
Definition ship_SSOParam : list ship := [
  mk_ship "SSOParam" "Shape" (CtOther 2) (LFlt (0) 1) (LFlt (-1) 1) (LFlt (1) 1) true;
  mk_ship "SSOParam" "Width" (CtOther 1) (LFlt (1) 2) (LFlt (0) 1) (LFlt (1) 1) true;
  mk_ship "SSOParam" "SubWidth" (CtOther 1) (LFlt (1) 2) (LFlt (0) 1) (LFlt (1) 1) true;
  mk_ship "SSOParam" "SubLevel" (CtOther 1) (LFlt (0) 1) (LFlt (0) 1) (LFlt (1) 1) true;
  mk_ship "SSOParam" "SyncPitch" (CtOther 10) (LFlt (0) 1) (LFlt (0) 1) (LFlt (60) 1) true;
  mk_ship "SSOParam" "UniSpread" CtOscSpread (LFlt (1) 5) (LFlt (0) 1) (LFlt (1) 1) true;
  mk_ship "SSOParam" "UniCount" (CtOther 49) (LInt (1)) (LInt (1)) (LInt (16)) false;
  mk_ship "SSOParam" "Character" (CtOther 69) (LInt (0)) (LInt (0)) (LInt (2)) false].
(** surgeosc-wavetable/src/param.rs:4- (variants), 43-56, 58-72, 74-87, 89-102, 104-117 *)
Definition ship_WTOscillatorParam : list ship := [
  mk_ship "WTOscillatorParam" "Morph" CtCountedSetPercent (LFlt (0) 1) (LFlt (0) 1) (LFlt (1) 1) true;
  mk_ship "WTOscillatorParam" "SkewV" (CtOther 2) (LFlt (0) 1) (LFlt (-1) 1) (LFlt (1) 1) true;
  mk_ship "WTOscillatorParam" "Saturate" (CtOther 1) (LFlt (0) 1) (LFlt (0) 1) (LFlt (1) 1) true;
  mk_ship "WTOscillatorParam" "Formant" (CtOther 10) (LFlt (0) 1) (LFlt (0) 1) (LFlt (60) 1) true;
  mk_ship "WTOscillatorParam" "SkewH" (CtOther 2) (LFlt (0) 1) (LFlt (-1) 1) (LFlt (1) 1) true;
  mk_ship "WTOscillatorParam" "UniSpread" CtOscSpread (LFlt (1) 5) (LFlt (0) 1) (LFlt (1) 1) true;
  mk_ship "WTOscillatorParam" "UniCount" (CtOther 50) (LFlt (1) 1) (LInt (1)) (LInt (16)) false].
(** surgeosc-window/src/param.rs:4- (variants), 39-50, 52-63, 65-76, 78-89, 91-102 *)
Definition ship_WindowOscillatorParam : list ship := [
  mk_ship "WindowOscillatorParam" "Morph" CtCountedSetPercent (LFlt (0) 1) (LFlt (0) 1) (LFlt (1) 1) true;
  mk_ship "WindowOscillatorParam" "Formant" (CtOther 6) (LFlt (0) 1) (LFlt (-60) 1) (LFlt (60) 1) true;
  mk_ship "WindowOscillatorParam" "Window" (CtOther 48) (LInt (0)) (LInt (0)) (LInt (8)) false;
  mk_ship "WindowOscillatorParam" "UniSpread" CtOscSpread (LFlt (1) 5) (LFlt (0) 1) (LFlt (1) 1) true;
  mk_ship "WindowOscillatorParam" "UniCount" (CtOther 50) (LInt (1)) (LInt (1)) (LInt (16)) false].

Definition ship_table : list ship := ship_AdsrParam ++ ship_LfoParam ++ ship_WaveshaperParam ++ ship_PatchParam ++ ship_SceneParam ++ ship_FilterParam ++ ship_OscillatorParam ++ ship_AllpassReverbParam ++ ship_ChorusParam ++ ship_ConditionerParam ++ ship_DistortionParam ++ ship_DualDelayParam ++ ship_EmphasizeParam ++ ship_Eq3BandParam ++ ship_FlangerParam ++ ship_FreqShiftParam ++ ship_PhaserParam ++ ship_ReverbParam ++ ship_RingModulatorParam ++ ship_RotarySpeakerParam ++ ship_VocoderParam ++ ship_AudioInputOscillatorParam ++ ship_FMOscillatorParam ++ ship_FM2OscillatorParam ++ ship_SineWaveOscillatorParam ++ ship_SampleAndHoldOscillatorParam ++ ship_SSOParam ++ ship_WTOscillatorParam ++ ship_WindowOscillatorParam.

(** every typed read of a parameter in the source, with its place *)
Definition read_table : list sread := [
  mk_read "AdsrParam" "ReleaseShape" KInt RdVal "surge-adsr/src/adsr.rs:193";
  mk_read "AdsrParam" "Attack" KFloat RdVal "surge-adsr/src/adsr.rs:259";
  mk_read "AdsrParam" "Attack" KFloat RdMin "surge-adsr/src/adsr.rs:263";
  mk_read "AdsrParam" "Sustain" KFloat RdVal "surge-adsr/src/adsr.rs:267";
  mk_read "AdsrParam" "AttackShape" KInt RdVal "surge-adsr/src/attack_shape.rs:22";
  mk_read "AdsrParam" "Mode" KBool RdVal "surge-adsr/src/check_analog.rs:14";
  mk_read "AdsrParam" "DecayShape" KInt RdVal "surge-adsr/src/decay_shape.rs:22";
  mk_read "AdsrParam" "Attack" KFloat RdVal "surge-adsr/src/get_param.rs:27";
  mk_read "AdsrParam" "Decay" KFloat RdVal "surge-adsr/src/get_param.rs:34";
  mk_read "AdsrParam" "Sustain" KFloat RdVal "surge-adsr/src/get_param.rs:41";
  mk_read "AdsrParam" "Release" KFloat RdVal "surge-adsr/src/get_param.rs:48";
  mk_read "LfoParam" "StartPhase" KFloat RdVal "surge-lfo/src/attack.rs:70";
  mk_read "LfoParam" "Shape" KInt RdVal "surge-lfo/src/attack.rs:71";
  mk_read "LfoParam" "Trigmode" KInt RdVal "surge-lfo/src/attack.rs:72";
  mk_read "LfoParam" "Delay" KFloat RdVal "surge-lfo/src/attack.rs:73";
  mk_read "LfoParam" "Attack" KFloat RdVal "surge-lfo/src/attack.rs:74";
  mk_read "LfoParam" "Hold" KFloat RdVal "surge-lfo/src/attack.rs:75";
  mk_read "LfoParam" "Rate" KFloat RdVal "surge-lfo/src/attack.rs:76";
  mk_read "LfoParam" "Deform" KFloat RdVal "surge-lfo/src/attack_shape_noise.rs:42";
  mk_read "LfoParam" "Deform" KFloat RdVal "surge-lfo/src/attack_shape_noise.rs:48";
  mk_read "LfoParam" "Deform" KFloat RdVal "surge-lfo/src/attack_shape_noise.rs:54";
  mk_read "LfoParam" "Deform" KFloat RdVal "surge-lfo/src/attack_shape_noise.rs:60";
  mk_read "LfoParam" "Unipolar" KBool RdVal "surge-lfo/src/attack_shape_sine.rs:34";
  mk_read "LfoParam" "Deform" KFloat RdVal "surge-lfo/src/attack_shape_snh.rs:52";
  mk_read "LfoParam" "Unipolar" KBool RdVal "surge-lfo/src/attack_shape_tri.rs:71";
  mk_read "LfoParam" "Deform" KInt RdVal "surge-lfo/src/bend.rs:124";
  mk_read "LfoParam" "Shape" KInt RdVal "surge-lfo/src/get.rs:16";
  mk_read "LfoParam" "Trigmode" KInt RdVal "surge-lfo/src/get.rs:31";
  mk_read "LfoParam" "Rate" KFloat RdVal "surge-lfo/src/get.rs:50";
  mk_read "LfoParam" "StartPhase" KFloat RdVal "surge-lfo/src/init.rs:71";
  mk_read "LfoParam" "Deform" KFloat RdVal "surge-lfo/src/phase_over_one.rs:18";
  mk_read "LfoParam" "Deform" KFloat RdVal "surge-lfo/src/phase_over_one.rs:30";
  mk_read "LfoParam" "StartPhase" KFloat RdVal "surge-lfo/src/phase_over_one.rs:72";
  mk_read "LfoParam" "StartPhase" KFloat RdVal "surge-lfo/src/phase_over_one.rs:77";
  mk_read "LfoParam" "Unipolar" KBool RdVal "surge-lfo/src/process.rs:51";
  mk_read "LfoParam" "Magnitude" KFloat RdVal "surge-lfo/src/process.rs:52";
  mk_read "LfoParam" "Deform" KFloat RdVal "surge-lfo/src/process_shape_stepseq.rs:18";
  mk_read "LfoParam" "Deform" KFloat RdVal "surge-lfo/src/process_shapes.rs:52";
  mk_read "LfoParam" "Deform" KFloat RdVal "surge-lfo/src/process_shapes.rs:92";
  mk_read "LfoParam" "Release" KFloat RdVal "surge-lfo/src/release.rs:24";
  mk_read "LfoParam" "Release" KFloat RdMax "surge-lfo/src/release.rs:30";
  mk_read "LfoParam" "Delay" KFloat RdMin "surge-lfo/src/update.rs:34";
  mk_read "LfoParam" "Attack" KFloat RdMin "surge-lfo/src/update.rs:38";
  mk_read "LfoParam" "Hold" KFloat RdMin "surge-lfo/src/update.rs:43";
  mk_read "LfoParam" "Sustain" KInt RdVal "surge-lfo/src/update_envelope.rs:120";
  mk_read "LfoParam" "Delay" KFloat RdVal "surge-lfo/src/update_envelope.rs:73";
  mk_read "LfoParam" "Attack" KFloat RdVal "surge-lfo/src/update_envelope.rs:74";
  mk_read "LfoParam" "Hold" KFloat RdVal "surge-lfo/src/update_envelope.rs:75";
  mk_read "LfoParam" "Decay" KFloat RdVal "surge-lfo/src/update_envelope.rs:76";
  mk_read "LfoParam" "Release" KFloat RdVal "surge-lfo/src/update_envelope.rs:77";
  mk_read "SceneParam" "PolyMode" KInt RdVal "surge-scene/src/scene/get.rs:32";
  mk_read "FilterParam" "Type" KInt RdVal "surge-scene/src/scene/get.rs:37";
  mk_read "FilterParam" "SubType" KInt RdVal "surge-scene/src/scene/get.rs:42";
  mk_read "WaveshaperParam" "Type" KInt RdVal "surge-scene/src/scene/get.rs:47";
  mk_read "SceneParam" "FilterBlockConfiguration" KInt RdVal "surge-scene/src/scene/get.rs:52";
  mk_read "SceneParam" "KeytrackRoot" KInt RdVal "surge-scene/src/scene/get.rs:74";
  mk_read "SceneParam" "LevelO1" KFloat RdVal "surge-scene/src/scene/get.rs:79";
  mk_read "SceneParam" "LevelO2" KFloat RdVal "surge-scene/src/scene/get.rs:80";
  mk_read "SceneParam" "LevelO3" KFloat RdVal "surge-scene/src/scene/get.rs:81";
  mk_read "SceneParam" "LevelNoise" KFloat RdVal "surge-scene/src/scene/get.rs:88";
  mk_read "SceneParam" "LevelRing12" KFloat RdVal "surge-scene/src/scene/get.rs:95";
  mk_read "SceneParam" "LevelRing23" KFloat RdVal "surge-scene/src/scene/get.rs:96";
  mk_read "SceneParam" "Pan" KFloat RdVal "surge-scene/src/scene/get.rs:116";
  mk_read "SceneParam" "Width" KFloat RdVal "surge-scene/src/scene/get.rs:120";
  mk_read "SceneParam" "Volume" KFloat RdVal "surge-scene/src/scene/get.rs:124";
  mk_read "SceneParam" "Pitch" KFloat RdVal "surge-scene/src/scene/get.rs:128";
  mk_read "SceneParam" "Octave" KInt RdVal "surge-scene/src/scene/get.rs:132";
  mk_read "SceneParam" "PitchBendRangeUp" KInt RdVal "surge-scene/src/scene/get.rs:136";
  mk_read "SceneParam" "PitchBendRangeDown" KInt RdVal "surge-scene/src/scene/get.rs:140";
  mk_read "SceneParam" "RouteO1" KInt RdVal "surge-scene/src/scene/get.rs:153";
  mk_read "SceneParam" "RouteO2" KInt RdVal "surge-scene/src/scene/get.rs:154";
  mk_read "SceneParam" "RouteO3" KInt RdVal "surge-scene/src/scene/get.rs:155";
  mk_read "SceneParam" "RouteRing12" KInt RdVal "surge-scene/src/scene/get.rs:162";
  mk_read "SceneParam" "RouteRing23" KInt RdVal "surge-scene/src/scene/get.rs:163";
  mk_read "SceneParam" "RouteNoise" KInt RdVal "surge-scene/src/scene/get.rs:169";
  mk_read "SceneParam" "FilterBlockConfiguration" KInt RdVal "surge-scene/src/scene/get.rs:174";
  mk_read "SceneParam" "Drift" KFloat RdVal "surge-scene/src/scene/get.rs:179";
  mk_read "SceneParam" "FmDepth" KFloat RdVal "surge-scene/src/scene/get.rs:183";
  mk_read "SceneParam" "NoiseColour" KFloat RdVal "surge-scene/src/scene/get.rs:187";
  mk_read "OscillatorParam" "Octave" KInt RdVal "surge-scene/src/scene/get.rs:192";
  mk_read "OscillatorParam" "Octave" KInt RdVal "surge-scene/src/scene/get.rs:193";
  mk_read "OscillatorParam" "Octave" KInt RdVal "surge-scene/src/scene/get.rs:194";
  mk_read "OscillatorParam" "KeyTrack" KBool RdVal "surge-scene/src/scene/get.rs:200";
  mk_read "SceneParam" "Portamento" KFloat RdVal "surge-scene/src/scene/get.rs:204";
  mk_read "SceneParam" "Portamento" KFloat RdMin "surge-scene/src/scene/get.rs:208";
  mk_read "SceneParam" "PolyMode" KInt RdVal "surge-scene/src/scene/get.rs:216";
  mk_read "FilterParam" "Cutoff" KFloat RdVal "surge-scene/src/scene/get.rs:221";
  mk_read "FilterParam" "KeyTrack" KFloat RdVal "surge-scene/src/scene/get.rs:225";
  mk_read "FilterParam" "EnvelopeMode" KFloat RdVal "surge-scene/src/scene/get.rs:229";
  mk_read "FilterParam" "Resonance" KFloat RdVal "surge-scene/src/scene/get.rs:233";
  mk_read "FilterParam" "Type" KInt RdVal "surge-scene/src/scene/get.rs:237";
  mk_read "FilterParam" "SubType" KInt RdVal "surge-scene/src/scene/get.rs:245";
  mk_read "SceneParam" "F2CutoffIsOffset" KBool RdVal "surge-scene/src/scene/get.rs:253";
  mk_read "SceneParam" "SoloO1" KBool RdVal "surge-scene/src/scene/get.rs:258";
  mk_read "SceneParam" "SoloO2" KBool RdVal "surge-scene/src/scene/get.rs:259";
  mk_read "SceneParam" "SoloO3" KBool RdVal "surge-scene/src/scene/get.rs:260";
  mk_read "SceneParam" "SoloNoise" KBool RdVal "surge-scene/src/scene/get.rs:266";
  mk_read "SceneParam" "SoloRing12" KBool RdVal "surge-scene/src/scene/get.rs:271";
  mk_read "SceneParam" "SoloRing23" KBool RdVal "surge-scene/src/scene/get.rs:272";
  mk_read "SceneParam" "MuteO1" KBool RdVal "surge-scene/src/scene/get.rs:279";
  mk_read "SceneParam" "MuteO2" KBool RdVal "surge-scene/src/scene/get.rs:280";
  mk_read "SceneParam" "MuteO3" KBool RdVal "surge-scene/src/scene/get.rs:281";
  mk_read "SceneParam" "MuteNoise" KBool RdVal "surge-scene/src/scene/get.rs:287";
  mk_read "SceneParam" "MuteRing12" KBool RdVal "surge-scene/src/scene/get.rs:292";
  mk_read "SceneParam" "MuteRing23" KBool RdVal "surge-scene/src/scene/get.rs:293";
  mk_read "SceneParam" "FmSwitch" KInt RdVal "surge-scene/src/scene/get.rs:302";
  mk_read "OscillatorParam" "Pitch" KFloat RdVal "surge-scene/src/scene/get.rs:311";
  mk_read "SceneParam" "FilterBalance" KFloat RdVal "surge-scene/src/scene/get.rs:329";
  mk_read "WaveshaperParam" "Drive" KFloat RdVal "surge-scene/src/scene/get.rs:333";
  mk_read "SceneParam" "VcaLevel" KFloat RdVal "surge-scene/src/scene/get.rs:337";
  mk_read "SceneParam" "VcaVelsense" KFloat RdVal "surge-scene/src/scene/get.rs:341";
  mk_read "SceneParam" "Feedback" KFloat RdVal "surge-scene/src/scene/get.rs:345";
  mk_read "OscillatorParam" "Type" KInt RdVal "surge-scene/src/scene/get.rs:352";
  mk_read "SceneParam" "PolyLimit" KInt RdVal "surge-scene/src/scene/play_voice.rs:27";
  mk_read "SceneParam" "LowCut" KFloat RdVal "surge-scene/src/scene/process.rs:253";
  mk_read "SceneParam" "PolyMode" KInt RdVal "surge-scene/src/scene/release_monophonic.rs:27";
  mk_read "PatchParam" "SceneMode" KInt RdVal "surge-synthesizer/src/synth/channel_controller_cc.rs:74";
  mk_read "PatchParam" "SceneActive" KInt RdVal "surge-synthesizer/src/synth/channel_controller_cc.rs:85";
  mk_read "PatchParam" "SplitKey" KInt RdVal "surge-synthesizer/src/synth/channel_controller_cc.rs:103";
  mk_read "PatchParam" "SplitKey" KInt RdVal "surge-synthesizer/src/synth/channel_mask.rs:6";
  mk_read "PatchParam" "SceneActive" KInt RdVal "surge-synthesizer/src/synth/channel_mask.rs:10";
  mk_read "PatchParam" "FxBypass" KInt RdVal "surge-synthesizer/src/synth/get.rs:10";
  mk_read "PatchParam" "SceneMode" KInt RdVal "surge-synthesizer/src/synth/get.rs:15";
  mk_read "PatchParam" "Volume" KFloat RdVal "surge-synthesizer/src/synth/process.rs:41";
  mk_read "PatchParam" "FxDisable" KInt RdVal "surge-synthesizer/src/synth/process.rs:81";
  mk_read "PatchParam" "FxDisable" KInt RdVal "surge-synthesizer/src/synth/process.rs:128";
  mk_read "SceneParam" "SendLevelA" KFloat RdVal "surge-synthesizer/src/synth/process.rs:205";
  mk_read "SceneParam" "SendLevelA" KFloat RdVal "surge-synthesizer/src/synth/process.rs:208";
  mk_read "SceneParam" "SendLevelB" KFloat RdVal "surge-synthesizer/src/synth/process.rs:226";
  mk_read "SceneParam" "SendLevelB" KFloat RdVal "surge-synthesizer/src/synth/process.rs:229";
  mk_read "PatchParam" "FxDisable" KInt RdVal "surge-synthesizer/src/synth/process.rs:253";
  mk_read "PatchParam" "FxDisable" KInt RdVal "surge-synthesizer/src/synth/process.rs:301";
  mk_read "PatchParam" "SceneActive" KInt RdVal "surge-synthesizer/src/synth/process_control.rs:35";
  mk_read "AllpassReverbParam" "ReturnLevel" KFloat RdVal "surgefx-allpass/src/effect.rs:39";
  mk_read "AllpassReverbParam" "RoomSize" KFloat RdVal "surgefx-allpass/src/process.rs:12";
  mk_read "AllpassReverbParam" "DecayTime" KFloat RdVal "surgefx-allpass/src/process.rs:16";
  mk_read "AllpassReverbParam" "Diffusion" KFloat RdVal "surgefx-allpass/src/process.rs:33";
  mk_read "AllpassReverbParam" "BuildUp" KFloat RdVal "surgefx-allpass/src/process.rs:34";
  mk_read "AllpassReverbParam" "HFDamping" KFloat RdVal "surgefx-allpass/src/process.rs:36";
  mk_read "AllpassReverbParam" "LFDamping" KFloat RdVal "surgefx-allpass/src/process.rs:37";
  mk_read "AllpassReverbParam" "Modulation" KFloat RdVal "surgefx-allpass/src/process.rs:40";
  mk_read "AllpassReverbParam" "Mix" KFloat RdVal "surgefx-allpass/src/process.rs:43";
  mk_read "AllpassReverbParam" "Width" KFloat RdVal "surgefx-allpass/src/process.rs:44";
  mk_read "AllpassReverbParam" "PreDelay" KFloat RdVal "surgefx-allpass/src/process.rs:51";
  mk_read "AllpassReverbParam" "DecayTime" KFloat RdVal "surgefx-allpass/src/update.rs:7";
  mk_read "AllpassReverbParam" "PreDelay" KFloat RdVal "surgefx-allpass/src/update.rs:8";
  mk_read "ChorusParam" "ReturnLevel" KFloat RdVal "surgefx-chorus/src/chorus.rs:40";
  mk_read "ChorusParam" "Feedback" KFloat RdVal "surgefx-chorus/src/update.rs:7";
  mk_read "ChorusParam" "Mix" KFloat RdVal "surgefx-chorus/src/update.rs:8";
  mk_read "ChorusParam" "HighCut" KFloat RdVal "surgefx-chorus/src/update.rs:9";
  mk_read "ChorusParam" "LowCut" KFloat RdVal "surgefx-chorus/src/update.rs:10";
  mk_read "ChorusParam" "Width" KFloat RdVal "surgefx-chorus/src/update.rs:11";
  mk_read "ChorusParam" "LowCut" KFloat RdVal "surgefx-chorus/src/update.rs:16";
  mk_read "ChorusParam" "Feedback" KFloat RdVal "surgefx-chorus/src/update.rs:36";
  mk_read "ChorusParam" "Rate" KFloat RdVal "surgefx-chorus/src/update.rs:37";
  mk_read "ChorusParam" "Time" KFloat RdVal "surgefx-chorus/src/update.rs:38";
  mk_read "ChorusParam" "Mix" KFloat RdVal "surgefx-chorus/src/update.rs:39";
  mk_read "ChorusParam" "Width" KFloat RdVal "surgefx-chorus/src/update.rs:40";
  mk_read "ChorusParam" "Depth" KFloat RdVal "surgefx-chorus/src/update.rs:61";
  mk_read "ChorusParam" "LowCut" KFloat RdVal "surgefx-chorus/src/update.rs:69";
  mk_read "ChorusParam" "HighCut" KFloat RdVal "surgefx-chorus/src/update.rs:73";
  mk_read "ConditionerParam" "AttackRate" KFloat RdVal "surgefx-conditioner/src/cfg.rs:22";
  mk_read "ConditionerParam" "ReleaseRate" KFloat RdVal "surgefx-conditioner/src/cfg.rs:23";
  mk_read "ConditionerParam" "Threshold" KFloat RdVal "surgefx-conditioner/src/cfg.rs:24";
  mk_read "ConditionerParam" "Balance" KFloat RdVal "surgefx-conditioner/src/cfg.rs:25";
  mk_read "ConditionerParam" "Width" KFloat RdVal "surgefx-conditioner/src/cfg.rs:26";
  mk_read "ConditionerParam" "Gain" KFloat RdVal "surgefx-conditioner/src/cfg.rs:27";
  mk_read "ConditionerParam" "ReturnLevel" KFloat RdVal "surgefx-conditioner/src/conditioner.rs:37";
  mk_read "ConditionerParam" "Bass" KFloat RdVal "surgefx-conditioner/src/update.rs:17";
  mk_read "ConditionerParam" "Treble" KFloat RdVal "surgefx-conditioner/src/update.rs:23";
  mk_read "DistortionParam" "ReturnLevel" KFloat RdVal "surgefx-distortion/src/distortion.rs:39";
  mk_read "DistortionParam" "Waveshaper" KInt RdVal "surgefx-distortion/src/get.rs:7";
  mk_read "DistortionParam" "Drive" KFloat RdVal "surgefx-distortion/src/process.rs:19";
  mk_read "DistortionParam" "OutGain" KFloat RdVal "surgefx-distortion/src/process.rs:20";
  mk_read "DistortionParam" "Feedback" KFloat RdVal "surgefx-distortion/src/process.rs:31";
  mk_read "DistortionParam" "PreHighCut" KFloat RdVal "surgefx-distortion/src/update.rs:24";
  mk_read "DistortionParam" "PostHighCut" KFloat RdVal "surgefx-distortion/src/update.rs:31";
  mk_read "DistortionParam" "PreFreq" KFloat RdVal "surgefx-distortion/src/update.rs:43";
  mk_read "DistortionParam" "PreGain" KFloat RdVal "surgefx-distortion/src/update.rs:45";
  mk_read "DistortionParam" "PreBandwidth" KFloat RdVal "surgefx-distortion/src/update.rs:46";
  mk_read "DistortionParam" "PostFreq" KFloat RdVal "surgefx-distortion/src/update.rs:52";
  mk_read "DistortionParam" "PostGain" KFloat RdVal "surgefx-distortion/src/update.rs:54";
  mk_read "DistortionParam" "PostBandwidth" KFloat RdVal "surgefx-distortion/src/update.rs:55";
  mk_read "DualDelayParam" "ReturnLevel" KFloat RdVal "surgefx-dualdelay/src/dual_delay.rs:49";
  mk_read "DualDelayParam" "Feedback" KFloat RdVal "surgefx-dualdelay/src/update.rs:7";
  mk_read "DualDelayParam" "CrossFeed" KFloat RdVal "surgefx-dualdelay/src/update.rs:8";
  mk_read "DualDelayParam" "Rate" KFloat RdVal "surgefx-dualdelay/src/update.rs:14";
  mk_read "DualDelayParam" "Depth" KFloat RdVal "surgefx-dualdelay/src/update.rs:28";
  mk_read "DualDelayParam" "Left" KFloat RdVal "surgefx-dualdelay/src/update.rs:42";
  mk_read "DualDelayParam" "Right" KFloat RdVal "surgefx-dualdelay/src/update.rs:43";
  mk_read "DualDelayParam" "Mix" KFloat RdVal "surgefx-dualdelay/src/update.rs:78";
  mk_read "DualDelayParam" "Width" KFloat RdVal "surgefx-dualdelay/src/update.rs:79";
  mk_read "DualDelayParam" "Pan" KFloat RdVal "surgefx-dualdelay/src/update.rs:80";
  mk_read "DualDelayParam" "LowCut" KFloat RdVal "surgefx-dualdelay/src/update.rs:81";
  mk_read "DualDelayParam" "HighCut" KFloat RdVal "surgefx-dualdelay/src/update.rs:82";
  mk_read "EmphasizeParam" "ReturnLevel" KFloat RdVal "surgefx-emphasize/src/emphasize.rs:29";
  mk_read "Eq3BandParam" "ReturnLevel" KFloat RdVal "surgefx-eq3band/src/eq3band.rs:29";
  mk_read "Eq3BandParam" "Gain" KFloat RdVal "surgefx-eq3band/src/update.rs:47";
  mk_read "Eq3BandParam" "LFreq" KFloat RdVal "surgefx-eq3band/src/update.rs:70";
  mk_read "Eq3BandParam" "LBandwidth" KFloat RdVal "surgefx-eq3band/src/update.rs:72";
  mk_read "Eq3BandParam" "MFreq" KFloat RdVal "surgefx-eq3band/src/update.rs:82";
  mk_read "Eq3BandParam" "MBandwidth" KFloat RdVal "surgefx-eq3band/src/update.rs:84";
  mk_read "Eq3BandParam" "HFreq" KFloat RdVal "surgefx-eq3band/src/update.rs:94";
  mk_read "Eq3BandParam" "HBandwidth" KFloat RdVal "surgefx-eq3band/src/update.rs:96";
  mk_read "Eq3BandParam" "LGain" KFloat RdVal "surgefx-eq3band/src/update.rs:74";
  mk_read "Eq3BandParam" "MGain" KFloat RdVal "surgefx-eq3band/src/update.rs:86";
  mk_read "Eq3BandParam" "HGain" KFloat RdVal "surgefx-eq3band/src/update.rs:98";
  mk_read "FlangerParam" "ReturnLevel" KFloat RdVal "surgefx-flanger/src/flanger.rs:47";
  mk_read "FlangerParam" "Rate" KFloat RdVal "surgefx-flanger/src/process.rs:26";
  mk_read "FlangerParam" "Mode" KInt RdVal "surgefx-flanger/src/process.rs:30";
  mk_read "FlangerParam" "VoiceZeroPitch" KFloat RdVal "surgefx-flanger/src/process.rs:31";
  mk_read "FlangerParam" "Depth" KFloat RdVal "surgefx-flanger/src/process.rs:32";
  mk_read "FlangerParam" "Mix" KFloat RdVal "surgefx-flanger/src/process.rs:33";
  mk_read "FlangerParam" "Feedback" KFloat RdVal "surgefx-flanger/src/process.rs:34";
  mk_read "FlangerParam" "FbLFDamping" KFloat RdVal "surgefx-flanger/src/process.rs:35";
  mk_read "FlangerParam" "Gain" KFloat RdVal "surgefx-flanger/src/process.rs:36";
  mk_read "FlangerParam" "Voices" KInt RdVal "surgefx-flanger/src/weights.rs:45";
  mk_read "FreqShiftParam" "ReturnLevel" KFloat RdVal "surgefx-freqshift/src/freq_shift.rs:38";
  mk_read "FreqShiftParam" "Feedback" KFloat RdVal "surgefx-freqshift/src/update.rs:7";
  mk_read "FreqShiftParam" "Delay" KFloat RdVal "surgefx-freqshift/src/update.rs:14";
  mk_read "FreqShiftParam" "Mix" KFloat RdVal "surgefx-freqshift/src/update.rs:19";
  mk_read "FreqShiftParam" "Shift" KFloat RdVal "surgefx-freqshift/src/update.rs:24";
  mk_read "FreqShiftParam" "RMult" KFloat RdVal "surgefx-freqshift/src/update.rs:33";
  mk_read "FreqShiftParam" "RMult" KFloat RdVal "surgefx-freqshift/src/update.rs:42";
  mk_read "FreqShiftParam" "RMult" KFloat RdVal "surgefx-freqshift/src/update.rs:43";
  mk_read "PhaserParam" "ReturnLevel" KFloat RdVal "surgefx-phaser/src/phaser.rs:35";
  mk_read "PhaserParam" "Mix" KFloat RdVal "surgefx-phaser/src/process.rs:23";
  mk_read "PhaserParam" "LFORate" KFloat RdVal "surgefx-phaser/src/process.rs:47";
  mk_read "PhaserParam" "LFORate" KFloat RdVal "surgefx-phaser/src/update.rs:8";
  mk_read "PhaserParam" "Stereo" KFloat RdVal "surgefx-phaser/src/update.rs:19";
  mk_read "PhaserParam" "Base" KFloat RdVal "surgefx-phaser/src/update.rs:32";
  mk_read "PhaserParam" "LFODepth" KFloat RdVal "surgefx-phaser/src/update.rs:36";
  mk_read "PhaserParam" "QualityFactor" KFloat RdVal "surgefx-phaser/src/update.rs:38";
  mk_read "PhaserParam" "Base" KFloat RdVal "surgefx-phaser/src/update.rs:42";
  mk_read "PhaserParam" "LFODepth" KFloat RdVal "surgefx-phaser/src/update.rs:46";
  mk_read "PhaserParam" "Feedback" KFloat RdVal "surgefx-phaser/src/update.rs:53";
  mk_read "ReverbParam" "PreDelay" KFloat RdVal "surgefx-reverb/src/block.rs:30";
  mk_read "ReverbParam" "Damping" KFloat RdVal "surgefx-reverb/src/block.rs:59";
  mk_read "ReverbParam" "Band1Freq" KFloat RdVal "surgefx-reverb/src/init.rs:62";
  mk_read "ReverbParam" "Band1Gain" KFloat RdVal "surgefx-reverb/src/init.rs:63";
  mk_read "ReverbParam" "LowCut" KFloat RdVal "surgefx-reverb/src/init.rs:78";
  mk_read "ReverbParam" "HighCut" KFloat RdVal "surgefx-reverb/src/init.rs:93";
  mk_read "ReverbParam" "RoomSize" KFloat RdVal "surgefx-reverb/src/preset.rs:66";
  mk_read "ReverbParam" "Mix" KFloat RdVal "surgefx-reverb/src/process.rs:8";
  mk_read "ReverbParam" "Width" KFloat RdVal "surgefx-reverb/src/process.rs:9";
  mk_read "ReverbParam" "DecayTime" KFloat RdVal "surgefx-reverb/src/process.rs:41";
  mk_read "ReverbParam" "RoomSize" KFloat RdVal "surgefx-reverb/src/process.rs:48";
  mk_read "ReverbParam" "RoomShape" KInt RdVal "surgefx-reverb/src/process.rs:53";
  mk_read "ReverbParam" "ReturnLevel" KFloat RdVal "surgefx-reverb/src/reverb.rs:39";
  mk_read "ReverbParam" "Band1Freq" KFloat RdVal "surgefx-reverb/src/update.rs:17";
  mk_read "ReverbParam" "Band1Gain" KFloat RdVal "surgefx-reverb/src/update.rs:18";
  mk_read "ReverbParam" "LowCut" KFloat RdVal "surgefx-reverb/src/update.rs:26";
  mk_read "ReverbParam" "HighCut" KFloat RdVal "surgefx-reverb/src/update.rs:34";
  mk_read "ReverbParam" "DecayTime" KFloat RdVal "surgefx-reverb/src/update.rs:51";
  mk_read "ReverbParam" "DecayTime" KFloat RdVal "surgefx-reverb/src/update.rs:63";
  mk_read "RingModulatorParam" "DiodeForwardBias" KFloat RdVal "surgefx-ringmod/src/diode_sim.rs:7";
  mk_read "RingModulatorParam" "DiodeLinearRegion" KFloat RdVal "surgefx-ringmod/src/diode_sim.rs:8";
  mk_read "RingModulatorParam" "LowCut" KFloat RdVal "surgefx-ringmod/src/init.rs:7";
  mk_read "RingModulatorParam" "HighCut" KFloat RdVal "surgefx-ringmod/src/init.rs:8";
  mk_read "RingModulatorParam" "Mix" KFloat RdVal "surgefx-ringmod/src/process.rs:15";
  mk_read "RingModulatorParam" "UnisonVoices" KInt RdVal "surgefx-ringmod/src/process.rs:19";
  mk_read "RingModulatorParam" "CarrierFreq" KFloat RdVal "surgefx-ringmod/src/process.rs:54";
  mk_read "RingModulatorParam" "UnisonDetune" KFloat RdVal "surgefx-ringmod/src/process.rs:55";
  mk_read "RingModulatorParam" "CarrierShape" KInt RdVal "surgefx-ringmod/src/process.rs:85";
  mk_read "RingModulatorParam" "LowCut" KFloat RdVal "surgefx-ringmod/src/process.rs:175";
  mk_read "RingModulatorParam" "HighCut" KFloat RdVal "surgefx-ringmod/src/process.rs:176";
  mk_read "RingModulatorParam" "ReturnLevel" KFloat RdVal "surgefx-ringmod/src/ringmod.rs:32";
  mk_read "RotarySpeakerParam" "Doppler" KFloat RdVal "surgefx-rotary/src/process.rs:23";
  mk_read "RotarySpeakerParam" "AmpMod" KFloat RdVal "surgefx-rotary/src/process.rs:31";
  mk_read "RotarySpeakerParam" "ReturnLevel" KFloat RdVal "surgefx-rotary/src/rotary_speaker.rs:35";
  mk_read "RotarySpeakerParam" "HornRate" KFloat RdVal "surgefx-rotary/src/set.rs:8";
  mk_read "VocoderParam" "Rate" KFloat RdVal "surgefx-vocoder/src/cfg.rs:14";
  mk_read "VocoderParam" "GateLevel" KFloat RdVal "surgefx-vocoder/src/cfg.rs:15";
  mk_read "VocoderParam" "Gain" KFloat RdVal "surgefx-vocoder/src/process.rs:6";
  mk_read "VocoderParam" "Quality" KFloat RdVal "surgefx-vocoder/src/update.rs:7";
  mk_read "VocoderParam" "FreqLo" KFloat RdVal "surgefx-vocoder/src/update.rs:8";
  mk_read "VocoderParam" "FreqHi" KFloat RdVal "surgefx-vocoder/src/update.rs:9";
  mk_read "VocoderParam" "ModCenter" KFloat RdVal "surgefx-vocoder/src/update.rs:10";
  mk_read "VocoderParam" "ModExpand" KFloat RdVal "surgefx-vocoder/src/update.rs:11";
  mk_read "VocoderParam" "NumBands" KInt RdVal "surgefx-vocoder/src/update.rs:12";
  mk_read "VocoderParam" "ReturnLevel" KFloat RdVal "surgefx-vocoder/src/vocoder.rs:31";
  mk_read "AudioInputOscillatorParam" "Gain" KFloat RdVal "surgeosc-audioin/src/process.rs:21";
  mk_read "AudioInputOscillatorParam" "Input" KFloat RdVal "surgeosc-audioin/src/process.rs:26";
  mk_read "AudioInputOscillatorParam" "Gain" KFloat RdVal "surgeosc-audioin/src/process.rs:47";
  mk_read "AudioInputOscillatorParam" "Input" KFloat RdVal "surgeosc-audioin/src/process.rs:52";
  mk_read "FMOscillatorParam" "M1Amount" KFloat RdVal "surgeosc-fm/src/process.rs:7";
  mk_read "FMOscillatorParam" "M2Amount" KFloat RdVal "surgeosc-fm/src/process.rs:8";
  mk_read "FMOscillatorParam" "M3Amount" KFloat RdVal "surgeosc-fm/src/process.rs:9";
  mk_read "FMOscillatorParam" "M1Ratio" KFloat RdVal "surgeosc-fm/src/process.rs:11";
  mk_read "FMOscillatorParam" "M2Ratio" KFloat RdVal "surgeosc-fm/src/process.rs:12";
  mk_read "FMOscillatorParam" "M3Freq" KFloat RdVal "surgeosc-fm/src/process.rs:13";
  mk_read "FMOscillatorParam" "Feedback" KFloat RdVal "surgeosc-fm/src/process.rs:14";
  mk_read "FM2OscillatorParam" "MxStartPhase" KFloat RdVal "surgeosc-fm2/src/init.rs:12";
  mk_read "FM2OscillatorParam" "M1Amount" KFloat RdVal "surgeosc-fm2/src/init.rs:13";
  mk_read "FM2OscillatorParam" "M2Amount" KFloat RdVal "surgeosc-fm2/src/init.rs:14";
  mk_read "FM2OscillatorParam" "M1Ratio" KInt RdVal "surgeosc-fm2/src/process.rs:12";
  mk_read "FM2OscillatorParam" "M2Ratio" KInt RdVal "surgeosc-fm2/src/process.rs:13";
  mk_read "FM2OscillatorParam" "M1Amount" KFloat RdVal "surgeosc-fm2/src/process.rs:14";
  mk_read "FM2OscillatorParam" "M2Amount" KFloat RdVal "surgeosc-fm2/src/process.rs:15";
  mk_read "FM2OscillatorParam" "MxShift" KFloat RdVal "surgeosc-fm2/src/process.rs:16";
  mk_read "FM2OscillatorParam" "MxStartPhase" KFloat RdVal "surgeosc-fm2/src/process.rs:17";
  mk_read "FM2OscillatorParam" "Feedback" KFloat RdVal "surgeosc-fm2/src/process.rs:18";
  mk_read "SineWaveOscillatorParam" "Shape" KInt RdVal "surgeosc-sine/src/block.rs:7";
  mk_read "SineWaveOscillatorParam" "Shape" KInt RdVal "surgeosc-sine/src/legacy.rs:12";
  mk_read "SineWaveOscillatorParam" "FMBehavior" KInt RdVal "surgeosc-sine/src/process.rs:17";
  mk_read "SineWaveOscillatorParam" "Feedback" KFloat RdVal "surgeosc-sine/src/process.rs:42";
  mk_read "SampleAndHoldOscillatorParam" "UniCount" KFloat RdVal "surgeosc-snh/src/convolute.rs:19";
  mk_read "SampleAndHoldOscillatorParam" "UniCount" KInt RdVal "surgeosc-snh/src/init.rs:25";
  mk_read "OscillatorParam" "Retrigger" KBool RdVal "surgeosc-snh/src/set_pitch.rs:20";
  mk_read "SampleAndHoldOscillatorParam" "UniSpread" KFloat RdVal "surgeosc-snh/src/set_pitch.rs:29";
  mk_read "SampleAndHoldOscillatorParam" "Sync_" KFloat RdVal "surgeosc-snh/src/update.rs:7";
  mk_read "SampleAndHoldOscillatorParam" "Correlation" KFloat RdVal "surgeosc-snh/src/update.rs:8";
  mk_read "SampleAndHoldOscillatorParam" "Smooth" KFloat RdVal "surgeosc-snh/src/update.rs:9";
  mk_read "SampleAndHoldOscillatorParam" "Sub" KFloat RdVal "surgeosc-snh/src/update.rs:10";
  mk_read "SampleAndHoldOscillatorParam" "Width" KFloat RdVal "surgeosc-snh/src/update.rs:11";
  mk_read "SSOParam" "UniSpread" KFloat RdVal "surgeosc-super/src/convolute/convolute.rs:30";
  mk_read "SSOParam" "UniCount" KInt RdVal "surgeosc-super/src/init.rs:20";
  mk_read "SSOParam" "Character" KInt RdVal "surgeosc-super/src/set.rs:6";
  mk_read "OscillatorParam" "Retrigger" KBool RdVal "surgeosc-super/src/set_pitch.rs:14";
  mk_read "SSOParam" "UniSpread" KFloat RdVal "surgeosc-super/src/set_pitch.rs:25";
  mk_read "SSOParam" "Shape" KFloat RdVal "surgeosc-super/src/update_lagvals.rs:13";
  mk_read "SSOParam" "Width" KFloat RdVal "surgeosc-super/src/update_lagvals.rs:14";
  mk_read "SSOParam" "SubWidth" KFloat RdVal "surgeosc-super/src/update_lagvals.rs:15";
  mk_read "SSOParam" "SubLevel" KFloat RdVal "surgeosc-super/src/update_lagvals.rs:16";
  mk_read "SSOParam" "SyncPitch" KFloat RdVal "surgeosc-super/src/update_lagvals.rs:17";
  mk_read "WTOscillatorParam" "UniSpread" KFloat RdVal "surgeosc-wavetable/src/convolute/convolute.rs:18";
  mk_read "WTOscillatorParam" "UniCount" KInt RdVal "surgeosc-wavetable/src/init.rs:21";
  mk_read "WTOscillatorParam" "Morph" KFloat RdVal "surgeosc-wavetable/src/set_pitch.rs:22";
  mk_read "WTOscillatorParam" "SkewH" KFloat RdVal "surgeosc-wavetable/src/update.rs:16";
  mk_read "WTOscillatorParam" "SkewV" KFloat RdVal "surgeosc-wavetable/src/update.rs:17";
  mk_read "WTOscillatorParam" "Saturate" KFloat RdVal "surgeosc-wavetable/src/update.rs:20";
  mk_read "WTOscillatorParam" "Formant" KFloat RdVal "surgeosc-wavetable/src/update.rs:25";
  mk_read "WTOscillatorParam" "Morph" KFloat RdVal "surgeosc-wavetable/src/update.rs:26";
  mk_read "WindowOscillatorParam" "Window" KInt RdVal "surgeosc-window/src/access.rs:27";
  mk_read "WindowOscillatorParam" "UniCount" KInt RdVal "surgeosc-window/src/init.rs:9";
  mk_read "OscillatorParam" "Retrigger" KBool RdVal "surgeosc-window/src/init.rs:70";
  mk_read "WindowOscillatorParam" "UniSpread" KFloat RdVal "surgeosc-window/src/process.rs:22";
  mk_read "WindowOscillatorParam" "UniSpread" KFloat RdVal "surgeosc-window/src/process.rs:26";
  mk_read "WindowOscillatorParam" "Morph" KFloat RdVal "surgeosc-window/src/suboscs.rs:8";
  mk_read "WindowOscillatorParam" "Formant" KFloat RdVal "surgeosc-window/src/suboscs.rs:12"].
