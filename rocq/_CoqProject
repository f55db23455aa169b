-Q theories Verif
theories/Base.v
theories/MeshModel.v
theories/MeshSpec.v
theories/MeshFacts.v
theories/MeshProps.v
theories/TimeModel.v
theories/TimeSpec.v
theories/TimeFacts.v
theories/TimeProps.v
theories/CsmModel.v
theories/CsmSpec.v
theories/TreeFacts.v
theories/CsmGraphFacts.v
theories/CsmTreeFacts.v
theories/CsmSubFacts.v
theories/CsmDataFacts.v
theories/CsmOpFacts.v
theories/CsmHistFacts.v
theories/CsmToy.v
theories/CsmProps.v
theories/RigidModel.v
theories/RigidSpec.v
theories/RigidFacts.v
theories/RigidProps.v
theories/InterpModel.v
theories/InterpSpec.v
theories/InterpFacts.v
theories/LinModel.v
theories/LinFacts.v
theories/InterpProps.v
theories/LcsTimeModel.v
theories/LcsTimeSpec.v
theories/LcsTimeFacts.v
theories/LcsTimeProps.v
theories/CsmGetModel.v
theories/CsmGetSpec.v
theories/CsmGetFacts.v
theories/CsmPathFacts.v
theories/CsmPoseFacts.v
theories/CsmRefFacts.v
theories/CsmUnionFacts.v
theories/CsmGetProps.v
theories/ShapeModel.v
theories/ShapeSpec.v
theories/ShapeFacts.v
theories/ShapeProps.v
theories/MeasModel.v
theories/MeasSpec.v
theories/MeasFacts.v
theories/MeasProps.v
theories/GraphModel.v
theories/GraphSpec.v
theories/GraphFacts.v
theories/GraphProps.v
theories/GeoModel.v
theories/GeoSpec.v
theories/GeoFacts.v
theories/GeoShapeFacts.v
theories/GeoProps.v
theories/GrooveModel.v
theories/GrooveSpec.v
theories/GrooveFacts.v
theories/GrooveProps.v
theories/TraceModel.v
theories/TraceSpec.v
theories/TraceFacts.v
theories/TraceProps.v
theories/NestedModel.v
theories/NestedSpec.v
theories/NestedFacts.v
theories/NestedProps.v
theories/ViewModel.v
theories/ViewSpec.v
theories/ViewFacts.v
theories/ViewProps.v
theories/WxFileModel.v
theories/WxFileSpec.v
theories/WxFileFacts.v
theories/WxFileProps.v
theories/SerialModel.v
theories/SerialSpec.v
theories/SerialFacts.v
theories/SerialProps.v
theories/LcsSerModel.v
theories/LcsSerSpec.v
theories/LcsSerFacts.v
theories/LcsSerProps.v
theories/SeriesModel.v
theories/SeriesSpec.v
theories/SeriesFacts.v
theories/SeriesProps.v
theories/ExprModel.v
theories/ExprSpec.v
theories/ExprFacts.v
theories/ExprProps.v
theories/CsmHeapModel.v
theories/CsmHeapSpec.v
theories/CsmHeapFacts.v
theories/CsmHeapValueFacts.v
theories/CsmHeapSimFacts.v
theories/CsmHeapProps.v
theories/CsmSerModel.v
theories/CsmSerSpec.v
theories/CsmSerFacts.v
theories/CsmSerFirstFacts.v
theories/CsmSerProps.v
theories/TsModel.v
theories/TsSpec.v
theories/TsFacts.v
theories/TsProps.v
theories/CsmInterpModel.v
theories/CsmInterpSpec.v
theories/CsmInterpFacts.v
theories/CsmInterpTreeFacts.v
theories/CsmInterpProps.v
theories/TagModel.v
theories/TagSpec.v
theories/TagFacts.v
theories/TagProps.v
theories/UnitValModel.v
theories/UnitValSpec.v
theories/UnitValFacts.v
theories/UnitValProps.v
theories/StdModel.v
theories/StdSpec.v
theories/StdFacts.v
theories/StdProps.v
theories/EquipModel.v
theories/EquipSpec.v
theories/EquipFacts.v
theories/EquipProps.v
theories/CheckModel.v
theories/CheckSpec.v
theories/CheckFacts.v
theories/CheckSeriesFacts.v
theories/CheckProps.v
theories/VarGeoModel.v
theories/VarGeoFacts.v
theories/VarGeoProps.v
theories/LcsNewModel.v
theories/LcsNewSpec.v
theories/LcsNewFacts.v
theories/LcsNewProps.v
theories/RotModel.v
theories/RotSpec.v
theories/RotFacts.v
theories/RotProps.v
theories/PlaneModel.v
theories/PlaneProps.v
theories/MediaModel.v
theories/MediaProps.v
theories/TagShapeModel.v
theories/TagShapeProps.v
theories/SpatialModel.v
theories/SpatialProps.v
theories/SineModel.v
theories/SineProps.v
theories/TimeXrModel.v
theories/TimeXrProps.v
theories/BufferModel.v
theories/BufferProps.v
theories/CoordModel.v
theories/CoordProps.v
theories/VarFileModel.v
theories/VarFileProps.v
theories/SeriesParamModel.v
theories/SeriesParamProps.v
theories/TsInitModel.v
theories/TsInitProps.v
theories/ShareModel.v
theories/ShareProps.v
theories/SchemaTreeModel.v
theories/SchemaTreeProps.v
theories/AttrModel.v
theories/AttrProps.v
theories/DocModel.v
theories/DocProps.v
theories/HistModel.v
theories/HistProps.v
theories/MathSerModel.v
theories/MathSerProps.v
theories/SeriesSerModel.v
theories/SeriesSerProps.v
theories/FrontModel.v
theories/FrontProps.v
theories/CloudModel.v
theories/CloudProps.v
theories/KindModel.v
theories/KindProps.v
theories/TimeInModel.v
theories/TimeInProps.v
theories/EqModel.v
theories/EqSpec.v
theories/EqProps.v
theories/DrawModel.v
theories/DrawSpec.v
theories/DrawFacts.v
theories/DrawProps.v
theories/ConvModel.v
theories/ConvSpec.v
theories/ConvProps.v
theories/CliModel.v
theories/CliSpec.v
theories/CliProps.v
theories/ShowModel.v
theories/ShowSpec.v
theories/ShowProps.v
theories/MakeGrooveModel.v
theories/MakeGrooveSpec.v
theories/MakeGrooveProps.v
theories/OptModel.v
theories/OptProps.v
theories/PlotModel.v
theories/PlotProps.v
theories/PintModel.v
theories/PintProps.v
theories/CreateModel.v
theories/CreateProps.v
theories/ReprModel.v
theories/ReprProps.v
theories/DataModel.v
theories/DataProps.v
theories/MeshVolumeProps.v
