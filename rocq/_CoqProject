-Q theories Verif

theories/Base.v
theories/Slots.v
theories/VecModel.v
theories/VecSpec.v
theories/VecProofs.v
theories/VecProps.v
theories/Word.v
theories/MathModel.v
theories/MathSpec.v
theories/MathProofs.v
theories/MathProps.v
theories/HashModel.v
theories/HashProofs.v
theories/HashProps.v
theories/QueueModel.v
theories/QueueSpec.v
theories/QueueProofs.v
theories/QueueProps.v
theories/HeapModel.v
theories/HeapSpec.v
theories/HeapProofs.v
theories/HeapProps.v
theories/MapModel.v
theories/MapSpec.v
theories/MapProofs.v
theories/MapProps.v
theories/StringModel.v
theories/StringSpec.v
theories/StringProofs.v
theories/StringProps.v
theories/FormatModel.v
theories/FormatSpec.v
theories/FormatProofs.v
theories/FormatProps.v
theories/RegionModel.v
theories/RegionSpec.v
theories/RegionProofs.v
theories/RegionProps.v
theories/FreeListModel.v
theories/FreeListSpec.v
theories/FreeListProofs.v
theories/FreeListProps.v
theories/RangeModel.v
theories/RangeSpec.v
theories/RangeProofs.v
theories/RangeInv.v
theories/RangeReach.v
theories/RangeSpace.v
theories/RangeProps.v
theories/RcModel.v
theories/RcSpec.v
theories/RcProofs.v
theories/RcSteps.v
theories/RcLive.v
theories/RcEffect.v
theories/RcProps.v
theories/ArcModel.v
theories/ArcSpec.v
theories/ArcProofs.v
theories/ArcProps.v
theories/Life.v
theories/LifeProofs.v
theories/OptModel.v
theories/OptSpec.v
theories/OptProofs.v
theories/OptProps.v
theories/TypesModel.v
theories/TypesProps.v
theories/VariantModel.v
theories/VariantSpec.v
theories/VariantProofs.v
theories/VariantProps.v
theories/FunctionModel.v
theories/FunctionSpec.v
theories/FunctionProofs.v
theories/FunctionProps.v
theories/TaskModel.v
theories/TaskSpec.v
theories/TaskProofs.v
theories/TaskLog.v
theories/TaskProps.v
theories/FlagModel.v
theories/FlagSpec.v
theories/FlagProps.v
theories/PoolModel.v
theories/PoolSpec.v
theories/PoolProofs.v
theories/PoolLog.v
theories/PoolTurns.v
theories/PoolProps.v
theories/F32.v
theories/PlaceModel.v
theories/PlaceProps.v
theories/EventModel.v
theories/EventSpec.v
theories/EventProps.v
theories/RngModel.v
theories/RngSpec.v
theories/RngParity.v
theories/RngProofs.v
theories/RngUnit.v
theories/RngProps.v
theories/SliceModel.v
theories/SliceSpec.v
theories/SliceProofs.v
theories/SliceProps.v
theories/LockModel.v
theories/LockSpec.v
theories/LockProps.v
theories/LogModel.v
theories/LogSpec.v
theories/LogProps.v
theories/FilesModel.v
theories/FilesSpec.v
theories/FilesProps.v
theories/ProfileModel.v
theories/ProfileSpec.v
theories/ProfileProofs.v
theories/ProfileProps.v
theories/ProfAllocModel.v
theories/ProfAllocSpec.v
theories/ProfAllocProps.v
theories/VectModel.v
theories/VectSpec.v
theories/VectProps.v
theories/Mat4Model.v
theories/Mat4Spec.v
theories/Mat4Props.v
theories/TransformSpec.v
theories/TransformProps.v
theories/QuatModel.v
theories/QuatProps.v
theories/EulerSpec.v
theories/EulerProps.v
theories/BBoxModel.v
theories/BBoxSpec.v
theories/BBoxProps.v
theories/NetModel.v
theories/NetSpec.v
theories/NetProps.v
theories/OsEventModel.v
theories/OsEventSpec.v
theories/OsEventProps.v
theories/ThreadModel.v
theories/ThreadSpec.v
theories/ThreadProps.v
theories/FlagOsModel.v
theories/FlagOsProps.v
theories/SpawnModel.v
theories/SpawnSpec.v
theories/SpawnProps.v
theories/SysModel.v
theories/SysProps.v
theories/TaskSharedModel.v
theories/TaskSharedProps.v
theories/HashVectModel.v
theories/HashVectProps.v
theories/ProfThreadsModel.v
theories/ProfThreadsSpec.v
theories/ProfThreadsProps.v
theories/FloatModel.v
theories/FloatProps.v
theories/LogLineModel.v
theories/LogLineSpec.v
theories/LogLineProps.v
theories/VectScalarProps.v
theories/ThreadNamesModel.v
theories/ThreadNamesSpec.v
theories/ThreadNamesProps.v
theories/FloatTextModel.v
theories/FloatTextSpec.v
theories/FloatTextProofs.v
theories/FloatTextProps.v
theories/BoxFloatModel.v
theories/BoxFloatSpec.v
theories/BoxFloatProps.v
theories/BoxErrorProps.v
theories/VectLengthModel.v
theories/VectLengthSpec.v
theories/VectLengthProps.v
theories/MatFloatModel.v
theories/MatFloatSpec.v
theories/MatFloatProps.v
theories/MatInverseProps.v
theories/QuatFloatModel.v
theories/QuatFloatSpec.v
theories/QuatFloatProps.v
theories/ProjFloatModel.v
theories/ProjFloatProps.v
theories/MapFloatModel.v
theories/MapFloatProps.v
