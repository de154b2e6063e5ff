-Q theories Verif
theories/Base.v
theories/PermutationModel.v
theories/SortModel.v
theories/GraphUtilModel.v
theories/UtilSpec.v
theories/GraphSpec.v
theories/PermutationProofs.v
theories/SortProofs.v
theories/GraphUtilProofs.v
theories/Properties_Util.v
theories/IdQueueModel.v
theories/IdQueueSpec.v
theories/IdQueueProofs.v
theories/IdSetModel.v
theories/IdSetSpec.v
theories/IdSetProofs.v
theories/Properties_Queues.v
theories/PathSpec.v
theories/GraphDec.v
theories/DijkstraModel.v
theories/DijkstraProofs.v
theories/DijkstraReset.v
theories/Properties_Dijkstra.v
theories/CchModel.v
theories/WalkSpec.v
theories/CchSpec.v
theories/CchCustomizeProofs.v
theories/CchTriangleProofs.v
theories/CchPartialProofs.v
theories/CchQueryProofs.v
theories/CchUnpackProofs.v
theories/CchPinProofs.v
theories/CchBuildModel.v
theories/CchChordalProofs.v
theories/CchBuildProofs.v
theories/CchAssembleProofs.v
theories/CchFilterProofs.v
theories/CchApiSpec.v
theories/CchApiProofs.v
theories/CchTransferProofs.v
theories/CchResetProofs.v
theories/Properties_Cch.v
theories/CchParallelModel.v
theories/CchLevelProofs.v
theories/CchParallelProofs.v
theories/Properties_CchParallel.v
theories/BitVectorModel.v
theories/BitVectorSpec.v
theories/BitVectorProofs.v
theories/BitVectorBulkProofs.v
theories/Properties_BitVector.v
theories/IdMapperModel.v
theories/IdMapperProofs.v
theories/Properties_IdMapper.v
theories/ProtobufModel.v
theories/ProtobufSpec.v
theories/ProtobufProofs.v
theories/Properties_Protobuf.v
theories/TagMapModel.v
theories/TagMapSpec.v
theories/TagMapProofs.v
theories/Properties_TagMap.v
theories/SaturatedModel.v
theories/Properties_Saturated.v
theories/VectorIoModel.v
theories/VectorIoProofs.v
theories/Properties_VectorIo.v
theories/OsmBlockModel.v
theories/OsmBlockSpec.v
theories/OsmBlockProofs.v
theories/Properties_OsmBlock.v
theories/GeoTreeModel.v
theories/GeoTreeSpec.v
theories/GeoTreeProofs.v
theories/Properties_GeoTree.v
theories/SccModel.v
theories/SccSpec.v
theories/SccInv.v
theories/SccProofs.v
theories/Properties_Scc.v
theories/ChCleanModel.v
theories/ChCleanSpec.v
theories/ChCleanProofs.v
theories/Properties_ChClean.v
theories/ChGraphModel.v
theories/ChBuildModel.v
theories/ChGraphProofs.v
theories/ChWitnessProofs.v
theories/ChContractProofs.v
theories/ChHierarchyProofs.v
theories/ChLoopProofs.v
theories/ChSpec.v
theories/ChFinishProofs.v
theories/ChCacheProofs.v
theories/ChBuildProofs.v
theories/ChQueryModel.v
theories/ChExtraModel.v
theories/ChExtraSpec.v
theories/ChExtraArcProofs.v
theories/ChExtraRunProofs.v
theories/ChExtraPinProofs.v
theories/Properties_ChExtra.v
theories/ChFileModel.v
theories/ChFileSpec.v
theories/ChFileProofs.v
theories/Properties_ChFile.v
theories/ChApiSpec.v
theories/ChSearchProofs.v
theories/ChRunProofs.v
theories/ChUnpackProofs.v
theories/ChPinProofs.v
theories/ChSweepProofs.v
theories/ChApiProofs.v
theories/Properties_ChQuery.v
theories/CchPerfectModel.v
theories/CchPerfectProofs.v
theories/CchPerfectDistProofs.v
theories/CchExtractProofs.v
theories/CchPerfectChProofs.v
theories/ChCheckModel.v
theories/ChCheckSpec.v
theories/ChCheckProofs.v
theories/Properties_CchPerfect.v
theories/Properties_ChCheck.v
theories/AsyncReaderModel.v
theories/AsyncReaderSpec.v
theories/AsyncReaderProofs.v
theories/AsyncReaderLiveProofs.v
theories/Properties_AsyncReader.v
theories/FlowModel.v
theories/FlowSpec.v
theories/FlowArray.v
theories/FlowNetProofs.v
theories/FlowBfsProofs.v
theories/FlowAugProofs.v
theories/FlowSearchProofs.v
theories/FlowCutProofs.v
theories/Properties_Flow.v
theories/NestedModel.v
theories/NestedSpec.v
theories/NestedArcProofs.v
theories/NestedRemoveProofs.v
theories/NestedCompProofs.v
theories/NestedPartProofs.v
theories/NestedTreeProofs.v
theories/NestedSeparatorProofs.v
theories/Properties_Nested.v
theories/InertialModel.v
theories/InertialSpec.v
theories/InertialProofs.v
theories/Properties_Inertial.v
theories/OsmGraphModel.v
theories/OsmGraphSpec.v
theories/OsmScanProofs.v
theories/OsmIdProofs.v
theories/OsmBuildProofs.v
theories/OsmSortProofs.v
theories/OsmLoadProofs.v
theories/Properties_OsmGraph.v
theories/OsmTurnModel.v
theories/OsmTurnSpec.v
theories/OsmTurnProofs.v
theories/Properties_OsmTurn.v
theories/OsmProfileModel.v
theories/OsmProfileSpec.v
theories/OsmProfileProofs.v
theories/OsmDecodeProofs.v
theories/Properties_OsmProfile.v
theories/OsmSimpleModel.v
theories/OsmSimpleProofs.v
theories/Properties_OsmSimple.v
theories/OsmFileModel.v
theories/OsmFileSpec.v
theories/OsmFileProofs.v
theories/Properties_OsmFile.v
theories/VerifyModel.v
theories/VerifySpec.v
theories/VerifyProofs.v
theories/Properties_Verify.v
theories/DistanceToolModel.v
theories/DistanceToolSpec.v
theories/DistanceToolProofs.v
theories/DistanceToolChProofs.v
theories/Properties_DistanceTool.v
theories/TextModel.v
theories/TextSpec.v
theories/TextProofs.v
theories/GraphToolModel.v
theories/GraphToolSpec.v
theories/GraphToolProofs.v
theories/GraphToolPermuteProofs.v
theories/Properties_GraphTool.v
theories/VectorToolModel.v
theories/VectorToolSpec.v
theories/VectorToolProofs.v
theories/VectorToolCompareProofs.v
theories/Properties_VectorTool.v
theories/FileSourceModel.v
theories/FileSourceSpec.v
theories/FileSourceProofs.v
theories/Properties_FileSource.v
theories/GeoDistModel.v
theories/GeoDistSpec.v
theories/GeoDistProofs.v
theories/GeoIndexProofs.v
theories/GeoToolModel.v
theories/GeoToolProofs.v
theories/Properties_GeoDist.v
theories/OrderToolModel.v
theories/OrderToolSpec.v
theories/OrderToolProofs.v
theories/Properties_OrderTool.v
theories/OsmRouteSpec.v
theories/OsmRouteProofs.v
theories/Properties_OsmRoute.v
theories/CoordToolModel.v
theories/CoordToolSpec.v
theories/CoordToolProofs.v
theories/FloatModel.v
theories/FloatProofs.v
theories/Properties_CoordTool.v
theories/DimacsRouteSpec.v
theories/DimacsRouteProofs.v
theories/Properties_DimacsRoute.v
theories/ExtractModel.v
theories/ExtractSpec.v
theories/ExtractProofs.v
theories/Properties_Extract.v
theories/ExtractRouteSpec.v
theories/Properties_ExtractRoute.v
theories/GeneratorModel.v
theories/GeneratorSpec.v
theories/Properties_Generator.v
theories/ShowPathModel.v
theories/ShowPathSpec.v
theories/ShowPathProofs.v
theories/Properties_ShowPath.v
theories/PictureModel.v
theories/PictureSpec.v
theories/PictureFloat.v
theories/PictureProofs.v
theories/Properties_Picture.v
theories/EmulateModel.v
theories/EmulateProofs.v
theories/Properties_Emulate.v
theories/BitMemoryModel.v
theories/BitMemorySpec.v
theories/BitMemoryProofs.v
theories/Properties_BitMemory.v
theories/BitSizeModel.v
theories/BitSizeProofs.v
theories/Properties_BitSize.v
theories/ChWrapModel.v
theories/ChWrapProofs.v
theories/Properties_ChWrap.v
theories/ChSmallProofs.v
theories/SortApiSpec.v
theories/SortApiModel.v
theories/SortApiProofs.v
theories/Properties_SortApi.v
theories/OsmFloatSpec.v
theories/OsmFloatModel.v
theories/OsmFloatProofs.v
theories/Properties_OsmFloat.v
theories/MapperMemoryModel.v
theories/MapperMemorySpec.v
theories/MapperMemoryProofs.v
theories/Properties_MapperMemory.v
theories/VectorFailSpec.v
theories/VectorFailModel.v
theories/VectorFailProofs.v
theories/Properties_VectorFail.v
theories/ObjectModel.v
theories/ObjectSpec.v
theories/ObjectProofs.v
theories/Properties_Object.v
theories/ProtobufFloatModel.v
theories/ProtobufFloatSpec.v
theories/ProtobufFloatProofs.v
theories/Properties_ProtobufFloat.v
theories/CompareFullModel.v
theories/CompareFullSpec.v
theories/CompareFullProofs.v
theories/Properties_CompareFull.v
theories/SourceFailModel.v
theories/SourceFailSpec.v
theories/SourceFailProofs.v
theories/Properties_SourceFail.v
