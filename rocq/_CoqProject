-Q theories Verif
theories/Base.v
theories/WavModel.v
theories/WavSpec.v
theories/WavClient.v
theories/WavBytes.v
theories/WavHeader.v
theories/WavRW.v
theories/WavMore.v
theories/WavMore2.v
theories/WavMore3.v
theories/WavMore4.v
theories/WavProps.v
theories/Util.v
theories/MidiModel.v
theories/SceneModel.v
theories/SynthModel.v
theories/SynthSpec.v
theories/SynthProofs.v
theories/SynthProofs2.v
theories/SynthProps.v
theories/F32.v
theories/F32Facts.v
theories/StepModel.v
theories/StepProofs.v
theories/StepProps.v
theories/LagModel.v
theories/LagProps.v
theories/BlockModel.v
theories/BlockProofs.v
theories/BlockProps.v
theories/RampProps.v
theories/MathModel.v
theories/ClipProps.v
theories/ConvProps.v
theories/FastProps.v
theories/SmallModel.v
theories/SmallProps.v
theories/UniProps.v
theories/ParamModel.v
theories/ParamProps.v
theories/ParamProps2.v
theories/TuneModel.v
theories/TuneProps.v
theories/AdsrModel.v
theories/AdsrProps.v
theories/LfoModel.v
theories/TableProps.v
theories/LfoProps.v
theories/DelayModel.v
theories/DelayProps.v
theories/WtModel.v
theories/WtProps.v
theories/WtLoadProps.v
theories/SincModel.v
theories/SincProps.v
theories/TuneProps2.v
theories/ParamProps3.v
theories/SynthProps2.v
theories/EngineModel.v
theories/EngineProps.v
theories/StepProps2.v
theories/SmallProps2.v
theories/WavProps2.v
theories/BiquadModel.v
theories/BiquadProofs.v
theories/BiquadProps.v
theories/BiquadProps2.v
theories/BiquadProps3.v
theories/UnitModel.v
theories/UnitProofs.v
theories/UnitProps.v
theories/ShaperModel.v
theories/ShaperProps.v
theories/QfModel.v
theories/QfProofs.v
theories/QfProps.v
theories/FiltModel.v
theories/FiltProps.v
theories/FiltProps2.v
theories/FiltProps3.v
theories/HalfModel.v
theories/HalfProps.v
theories/HalfProps2.v
theories/CondModel.v
theories/CondProps.v
theories/RingModel.v
theories/RingProps.v
theories/DistModel.v
theories/DistProps.v
theories/ReverbModel.v
theories/ReverbProofs.v
theories/ReverbProps.v
theories/ReverbProps2.v
theories/FlangerModel.v
theories/FlangerProps.v
theories/ShipModel.v
theories/ShipProps.v
theories/AllpassModel.v
theories/AllpassProofs.v
theories/AllpassProps.v
theories/AllpassProps2.v
theories/AllpassProps3.v
theories/AllpassProps4.v
theories/EngineProps2.v
theories/FlangerProps2.v
theories/FastProps2.v
theories/RingProps2.v
theories/TightProps.v
theories/PhaserModel.v
theories/PhaserProps.v
theories/PhaserProps2.v
theories/PhaserProps3.v
theories/VoiceModel.v
theories/VoiceProps.v
theories/VoiceProps2.v
theories/VoiceProps3.v
theories/OscModel.v
theories/OscProps.v
theories/OscProps2.v
theories/OscProps3.v
theories/ChorusModel.v
theories/ChorusProps.v
theories/RotaryModel.v
theories/RotaryProps.v
theories/FshiftModel.v
theories/FshiftProofs.v
theories/FshiftProofs2.v
theories/FshiftProps.v
theories/FshiftProps2.v
theories/FshiftProps3.v
theories/EqModel.v
theories/EqProps.v
theories/VocModel.v
theories/VocProofs.v
theories/VocProps.v
theories/VocProps2.v
theories/VocProps3.v
theories/QfProps2.v
theories/TightProps2.v
theories/TightProps3.v
theories/TightProps4.v
theories/SsoModel.v
theories/SsoProofs.v
theories/SsoProps.v
theories/SsoProps2.v
theories/SsoProps3.v
theories/SsoProps4.v
theories/SnhModel.v
theories/SnhProps.v
theories/SnhProps2.v
theories/SnhProps3.v
theories/TightProps5.v
theories/NlfModel.v
theories/NlfProps.v
theories/NlfProps2.v
theories/NlfProps3.v
theories/LadderModel.v
theories/LadderProps.v
theories/LadderProps2.v
theories/IirModel.v
theories/IirProps.v
theories/IirProps2.v
theories/IirProps3.v
theories/IirProps4.v
theories/TightProps6.v
theories/ObxdModel.v
theories/ObxdProps.v
theories/ObxdProps2.v
theories/DiodeModel.v
theories/DiodeProps.v
theories/DiodeProps2.v
theories/TightProps7.v
theories/K35Model.v
theories/K35Props.v
theories/K35Props2.v
theories/WtOscModel.v
theories/WtOscProps.v
theories/WtOscProps2.v
theories/WinModel.v
theories/TightProps8.v
theories/WinProps.v
theories/WtOscProps3.v
theories/WinProps2.v
