-Q theories Verif
theories/Base.v
theories/BaseFacts.v
theories/TagModel.v
theories/TagSpec.v
theories/TagProofs.v
theories/TagProps.v
theories/PoolModel.v
theories/HdfModel.v
theories/SamplerModel.v
theories/PoolProofs.v
theories/HdfProofs.v
theories/SamplerProofs.v
theories/SamplerSpec.v
theories/SamplerFacts.v
theories/CrashModel.v
theories/CrashProofs.v
theories/AddingProofs.v
theories/AddingFacts.v
theories/PoolSpec.v
theories/PoolFacts.v
theories/AskSpec.v
theories/AskFacts.v
theories/CrashFacts.v
theories/SamplerDemo.v
theories/SamplerProps.v
theories/StoreModel.v
theories/StoreSpec.v
theories/StoreProofs.v
theories/StoreCrash.v
theories/StoreMemory.v
theories/StoreCost.v
theories/StoreProps.v
theories/QTypeModel.v
theories/QTypeSpec.v
theories/QTypeProofs.v
theories/QTypeProps.v
theories/QuantityModel.v
theories/QuantitySpec.v
theories/QuantityProofs.v
theories/QuantityGraph.v
theories/QuantityCache.v
theories/QuantityCacheProofs.v
theories/QuantityFacts.v
theories/QuantityProps.v
theories/NumModel.v
theories/NumFacts.v
theories/EstimateModel.v
theories/EstimateSpec.v
theories/EstimateProofs.v
theories/EstimateFacts.v
theories/EstimateLinear.v
theories/EstimateItems.v
theories/EstimateGraph.v
theories/EstimateProps.v
theories/MomentsModel.v
theories/MomentsSpec.v
theories/LegendreFacts.v
theories/MomentsProofs.v
theories/MomentsValues.v
theories/MomentsEstimate.v
theories/MomentsFacts.v
theories/MomentsProps.v
theories/AllocModel.v
theories/AllocSpec.v
theories/AllocProofs.v
theories/AllocFacts.v
theories/AllocProps.v
theories/PermTac.v
theories/ConcModel.v
theories/ConcSpec.v
theories/ConcProofs.v
theories/ConcProps.v
theories/PbsModel.v
theories/PbsSpec.v
theories/PbsRead.v
theories/PbsTimes.v
theories/PbsPool.v
theories/PbsSystem.v
theories/PbsInv.v
theories/PbsRecover.v
theories/PbsMore.v
theories/PbsProps.v
theories/FlowModel.v
theories/FlowSpec.v
theories/FlowProofs.v
theories/FlowProps.v
theories/SynthModel.v
theories/SynthProps.v
theories/FieldModel.v
theories/FieldSpec.v
theories/FieldProofs.v
theories/FieldMeaning.v
theories/FieldProps.v
theories/MeshModel.v
theories/MeshProps.v
theories/RangeModel.v
theories/RangeProps.v
theories/FourierModel.v
theories/FourierProps.v
theories/DistModel.v
theories/DistSpec.v
theories/DistProofs.v
theories/CdfProps.v
theories/FitProps.v
theories/PenaltyProps.v
theories/OrthModel.v
theories/OrthProps.v
theories/GmshModel.v
theories/GmshProofs.v
theories/GmshSpec.v
theories/GmshProps.v
theories/FormatModel.v
theories/FormatSpec.v
theories/FormatProps.v
theories/SvdModel.v
theories/SvdProps.v
theories/KlModel.v
theories/KlProps.v
theories/ShootModel.v
theories/ShootSpec.v
theories/ShootProofs.v
theories/ShootProps.v
theories/ChecksProps.v
theories/SlopeModel.v
theories/SlopeSpec.v
theories/SlopeProofs.v
theories/SlopeProps.v
theories/RegModel.v
theories/RegSpec.v
theories/RegProps.v
theories/DomainModel.v
theories/DomainSpec.v
theories/DomainProps.v
theories/BootModel.v
theories/BootProps.v
theories/SeedModel.v
theories/SeedSpec.v
theories/SeedProps.v
theories/WorkModel.v
theories/WorkSpec.v
theories/WorkProofs.v
theories/WorkConcModel.v
theories/WorkConcProofs.v
theories/WorkProps.v
theories/InitProps.v
theories/PbsRestartModel.v
theories/PbsRestart.v
theories/PbsRestartProps.v
theories/TimeModel.v
theories/TimeProps.v
theories/FlowRunModel.v
theories/FlowRunProps.v
theories/LegDerModel.v
theories/LegDerProps.v
theories/MomEqProps.v
theories/ScriptModel.v
theories/ScriptProps.v
theories/AdaptModel.v
theories/AdaptFacts.v
theories/AdaptProps.v
theories/QWrapModel.v
theories/QWrapProps.v
theories/QSizeFacts.v
theories/QSizeProps.v
theories/ProbSpec.v
theories/ProbFacts.v
theories/ProbProps.v
theories/PbsLatestProps.v
theories/QDictProps.v
theories/AllocProbProps.v
theories/QuadModel.v
theories/QuadSpec.v
theories/QuadFacts.v
theories/QuadProps.v
theories/WorkCwdProps.v
theories/ParModel.v
theories/ParFacts.v
theories/ParSpec.v
theories/ParProofs.v
theories/ParDead.v
theories/ParProps.v
theories/OrthFirstProps.v
theories/PlotModel.v
theories/PlotFacts.v
theories/PlotProps.v
theories/CovarModel.v
theories/CovarFacts.v
theories/CovarPow.v
theories/CovarProps.v
theories/SpectrumModel.v
theories/SpectrumSpec.v
theories/SpectrumFacts.v
theories/SpectrumMean.v
theories/SpectrumProps.v
theories/SpectrumExp.v
theories/SpectrumExpProps.v
theories/SubModel.v
theories/SubFacts.v
theories/SubProps.v
theories/ShapeModel.v
theories/ShapeProps.v
theories/SynthMcProps.v
theories/ContModel.v
theories/ContFacts.v
theories/ContProps.v
theories/StatsModel.v
theories/StatsProps.v
theories/SynthWorkModel.v
theories/SynthWorkProps.v
theories/FracModel.v
theories/FracProps.v
theories/ViolinModel.v
theories/ViolinProps.v
theories/MetricModel.v
theories/MetricFacts.v
theories/MetricProps.v
theories/EnvModel.v
theories/EnvProps.v
theories/HistModel.v
theories/HistProps.v
theories/BsPlotModel.v
theories/BsPlotProps.v
theories/BsRegModel.v
theories/BsRegProps.v
