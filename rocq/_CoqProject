-Q theories Verif
theories/Base.v
theories/BitsModel.v
theories/BitsSpec.v
theories/BitsProof.v
theories/BitsVecProof.v
theories/BitsProps.v
theories/CrcModel.v
theories/CrcSpec.v
theories/CrcProof.v
theories/CrcProps.v
theories/FloatBase.v
theories/FloatModel.v
theories/FloatSpec.v
theories/FloatProof.v
theories/FloatFields.v
theories/FloatProps.v
theories/TypesModel.v
theories/RefactorModel.v
theories/TypesSpec.v
theories/TypesProof.v
theories/RefactorProof.v
theories/TypesProps.v
theories/SemanticModel.v
theories/MetaModel.v
theories/BandModel.v
theories/DataModel.v
theories/StreamModel.v
theories/VecReads.v
theories/MetaSpec.v
theories/MetaProof.v
theories/ExampleTac.v
theories/MetaProps.v
theories/DataSpec.v
theories/DataProof.v
theories/MergeProof.v
theories/DataTop.v
theories/DataProps.v
theories/UnitSpec.v
theories/UnitProof.v
theories/UnitProps.v
theories/StreamSpec.v
theories/StreamProof.v
theories/StreamProps.v
theories/Float64Proof.v
theories/ToolsModel.v
theories/ToolsSpec.v
theories/ToolsProof.v
theories/ToolsFloatProof.v
theories/ToolsProps.v
theories/ArithModel.v
theories/ArithSpec.v
theories/ArithProof.v
theories/ArithProps.v
theories/SpihtModel.v
theories/SpihtSpec.v
theories/SpihtTree.v
theories/SpihtProof.v
theories/SpihtHeader.v
theories/SpihtProps.v
theories/BinaryModel.v
theories/BinarySpec.v
theories/BinaryReads.v
theories/BinaryProof.v
theories/BinaryLimits.v
theories/BinaryBlock.v
theories/BinaryProps.v
theories/SynthModel.v
theories/SynthSpec.v
theories/SynthProof.v
theories/SynthIndex.v
theories/SynthMore.v
theories/SynthCurve.v
theories/SynthProps.v
theories/CurveModel.v
theories/CurveSpec.v
theories/CurveProof.v
theories/CurveProps.v
theories/ConformModel.v
theories/ConformSpec.v
theories/ConformUnit.v
theories/ConformProof.v
theories/ConformProps.v
theories/JsonModel.v
theories/JsonSpec.v
theories/JsonBits.v
theories/JsonProof.v
theories/JsonStream.v
theories/JsonProps.v
theories/TripSpec.v
theories/TripInit.v
theories/TripData.v
theories/TripRead.v
theories/TripProof.v
theories/TripProps.v
theories/FinishProof.v
theories/FinishProps.v
theories/IvsModel.v
theories/IvsSpec.v
theories/IvsProof.v
theories/IvsFloatProof.v
theories/IvsImport.v
theories/IvsBridge.v
theories/IvsProps.v
theories/AhapModel.v
theories/AhapSpec.v
theories/AhapFloat.v
theories/AhapProof.v
theories/AhapImport.v
theories/AhapMore.v
theories/AhapProps.v
theories/WaveletModel.v
theories/WaveletTransform.v
theories/WaveletFilter.v
theories/WaveletInverse.v
theories/WaveletSpec.v
theories/WaveletQuant.v
theories/WaveletAlloc.v
theories/WaveletBits.v
theories/WaveletCodec.v
theories/WaveletBlocks.v
theories/WaveletSilent.v
theories/WaveletLength.v
theories/WaveletEnd.v
theories/WaveletProps.v
theories/PcmPlay.v
theories/PcmBand.v
theories/PcmModel.v
theories/PcmSpec.v
theories/PcmEnd.v
theories/PcmConfig.v
theories/PcmProof.v
theories/PcmProps.v
theories/PeakModel.v
theories/PeakSpec.v
theories/PeakProof.v
theories/MaskFloat.v
theories/PeakMask.v
theories/PeakBand.v
theories/PeakProps.v
theories/MainModel.v
theories/MainSpec.v
theories/MainProof.v
theories/MainEncode.v
theories/MainOhm.v
theories/MainSynth.v
theories/MainAudio.v
theories/MainProps.v
theories/InterpModel.v
theories/InterpSpec.v
theories/InterpBase.v
theories/AkimaProof.v
theories/AkimaNan.v
theories/BezierProof.v
theories/BezierCurve.v
theories/AkimaCurve.v
theories/AkimaSlope.v
theories/BsplineProof.v
theories/InterpEffect.v
theories/InterpProps.v
