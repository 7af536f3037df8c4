-Q theories Verif
theories/AccumModel.v
theories/AccumProofs.v
theories/AccumProps.v
theories/AccumSpec.v
theories/Base.v
theories/BindModel.v
theories/BindProofs.v
theories/BindProps.v
theories/BindSpec.v
theories/BufferModel.v
theories/BufferMoreProps.v
theories/BufferProofs.v
theories/BufferProps.v
theories/BufferSim.v
theories/BufferSpec.v
theories/ClassModel.v
theories/ClassProofs.v
theories/ClassProps.v
theories/ClassSpec.v
theories/ConcModel.v
theories/ConcProofs.v
theories/ConcProps.v
theories/ConcSpec.v
theories/ConstexprModel.v
theories/ConstexprProofs.v
theories/ConstexprProps.v
theories/ConstexprSpec.v
theories/ConstvalModel.v
theories/ConstvalMoreProps.v
theories/ConstvalProofs.v
theories/ConstvalProps.v
theories/ConstvalSpec.v
theories/CtypeModel.v
theories/CtypeProofs.v
theories/CtypeProps.v
theories/CtypeSpec.v
theories/DetectModel.v
theories/DetectProofs.v
theories/DetectProps.v
theories/DetectSpec.v
theories/DispatchModel.v
theories/DispatchProofs.v
theories/DispatchProps.v
theories/DispatchSpec.v
theories/ExpandExactProofs.v
theories/ExpandModel.v
theories/ExpandProofs.v
theories/ExpandProps.v
theories/ExpandSpec.v
theories/ExtractModel.v
theories/ExtractProofs.v
theories/ExtractProps.v
theories/ExtractSpec.v
theories/FlagQueryModel.v
theories/FlagQueryProofs.v
theories/FlagQueryProps.v
theories/FlagQuerySpec.v
theories/FlagsPairsProofs.v
theories/ForwardModel.v
theories/ForwardProps.v
theories/ForwardSpec.v
theories/FunctionalModel.v
theories/FunctionalProps.v
theories/FunctionalSpec.v
theories/FunctorModel.v
theories/FunctorProofs.v
theories/FunctorProps.v
theories/FunctorSpec.v
theories/GuideModel.v
theories/GuideProofs.v
theories/GuideProps.v
theories/GuideSpec.v
theories/InitModel.v
theories/InitProofs.v
theories/InitProps.v
theories/InitSpec.v
theories/InvokeModel.v
theories/InvokeProps.v
theories/InvokeSpec.v
theories/IostreamModel.v
theories/IostreamProofs.v
theories/IostreamProps.v
theories/IostreamSpec.v
theories/LifeModel.v
theories/LifeProofs.v
theories/LifeProps.v
theories/LifeSpec.v
theories/ManipModel.v
theories/ManipProps.v
theories/ManipSpec.v
theories/MetaFormsProofs.v
theories/MetaFormsProps.v
theories/MetaFormsSpec.v
theories/MetaModel.v
theories/MetaProofs.v
theories/MetaProps.v
theories/MetaSpec.v
theories/MoveModel.v
theories/MoveProofs.v
theories/MoveProps.v
theories/MoveSpec.v
theories/OverRefModel.v
theories/OverRefProofs.v
theories/OverRefProps.v
theories/OverRefSpec.v
theories/OverloadModel.v
theories/OverloadProofs.v
theories/OverloadProps.v
theories/OverloadSpec.v
theories/PermItModel.v
theories/PermItMoreProps.v
theories/PermItProofs.v
theories/PermItProps.v
theories/PermItSpec.v
theories/PermModel.v
theories/PermProofs.v
theories/PermProps.v
theories/PermSpec.v
theories/PredModel.v
theories/PredProofs.v
theories/PredProps.v
theories/PredSpec.v
theories/ProtoCountProofs.v
theories/ProtoLoopProofs.v
theories/ProtoModel.v
theories/ProtoMoreProps.v
theories/ProtoProofs.v
theories/ProtoProps.v
theories/ProtoResultProofs.v
theories/ProtoRunProofs.v
theories/ProtoSimProofs.v
theories/ProtoSpec.v
theories/RTupModel.v
theories/RTupProps.v
theories/RTupSpec.v
theories/RangeModel.v
theories/RangeMoreProps.v
theories/RangeProofs.v
theories/RangeProps.v
theories/RangeSpec.v
theories/RefTupleModel.v
theories/RefTupleProofs.v
theories/RefTupleProps.v
theories/RefTupleSpec.v
theories/SearchModel.v
theories/SearchProofs.v
theories/SearchProps.v
theories/SearchSpec.v
theories/SerializeFlagsProofs.v
theories/SerializeModel.v
theories/SerializeProofs.v
theories/SerializeProps.v
theories/SerializeSpec.v
theories/SinkModel.v
theories/SinkProofs.v
theories/SinkProps.v
theories/SinkSpec.v
theories/SoaCopyModel.v
theories/SoaCopyProofs.v
theories/SoaCopyProps.v
theories/SoaCopySpec.v
theories/SoaModel.v
theories/SoaMoreProps.v
theories/SoaProofs.v
theories/SoaProps.v
theories/SoaSpec.v
theories/StreamFlagsProofs.v
theories/StreamIoModel.v
theories/StreamIoProofs.v
theories/StreamIoProps.v
theories/StreamIoSpec.v
theories/StreamModel.v
theories/StreamPadProofs.v
theories/StreamProofs.v
theories/StreamProps.v
theories/StreamSpec.v
theories/SwapProofs.v
theories/SwapProps.v
theories/SwapSpec.v
theories/TestAlgorithm.v
theories/TestConstval.v
theories/TestExperimental.v
theories/TestMeta.v
theories/TestSerialize.v
theories/TestTuple.v
theories/TestVariant.v
theories/ThrowModel.v
theories/ThrowProofs.v
theories/ThrowProps.v
theories/ThrowSpec.v
theories/ToArrayModel.v
theories/ToArrayProofs.v
theories/ToArrayProps.v
theories/ToArraySpec.v
theories/TraitsModel.v
theories/TraitsProps.v
theories/TupleModel.v
theories/TupleProofs.v
theories/TupleProps.v
theories/TupleSpec.v
theories/TypeEnumModel.v
theories/TypeEnumProps.v
theories/TypeEnumSpec.v
theories/TypeSeqModel.v
theories/TypeSeqProofs.v
theories/TypeSeqProps.v
theories/TypeSeqSpec.v
theories/VCatModel.v
theories/VCatProps.v
theories/VCatSpec.v
theories/VTupleModel.v
theories/VTupleProofs.v
theories/VTupleProps.v
theories/VTupleSpec.v
theories/VariantModel.v
theories/VariantMoreProps.v
theories/VariantProofs.v
theories/VariantProps.v
theories/VariantSpec.v
theories/WithModel.v
theories/WithProps.v
theories/WithSpec.v
theories/ZipAlgoProofs.v
theories/ZipCatModel.v
theories/ZipCatMoreProps.v
theories/ZipCatProofs.v
theories/ZipCatProps.v
theories/ZipCatSpec.v
theories/ZipLoopProofs.v
theories/ZipModel.v
theories/ZipProofs.v
theories/ZipProps.v
theories/ZipSpec.v
