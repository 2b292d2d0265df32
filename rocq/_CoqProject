-Q theories Verif
theories/Base.v
theories/ListLemmas.v
theories/PySort.v
theories/PySortProofs.v
theories/SeqOrderModel.v
theories/SeqOrderSpec.v
theories/SeqOrderProofs.v
theories/SeqOrderProps.v
theories/DistribModel.v
theories/DistribSpec.v
theories/DistribProofs.v
theories/DistribProps.v
theories/WorkerModel.v
theories/WorkerSpec.v
theories/WorkerProofs.v
theories/WorkerProps.v
theories/PyDict.v
theories/NumbersDictModel.v
theories/NumbersDictSpec.v
theories/NumbersDictProofs.v
theories/NumbersDictProps.v
theories/BatchPipeModel.v
theories/BatchPipeSpec.v
theories/BatchPipeProofs.v
theories/BatchPipeProps.v
theories/ShuffleModel.v
theories/ShuffleSpec.v
theories/ShuffleProofs.v
theories/ShuffleProps.v
theories/ChunkModel.v
theories/ChunkSpec.v
theories/ChunkProofs.v
theories/ChunkProps.v
theories/LruModel.v
theories/LruSpec.v
theories/LruProofs.v
theories/LruProps.v
theories/LockModel.v
theories/LockSpec.v
theories/LockProofs.v
theories/LockProps.v
theories/FileCopyModel.v
theories/FileCopySpec.v
theories/FileCopyProofs.v
theories/FileCopyProps.v
theories/CleanupModel.v
theories/CleanupSpec.v
theories/CleanupProofs.v
theories/CleanupProps.v
theories/TouchModel.v
theories/TouchSpec.v
theories/TouchProofs.v
theories/TouchProps.v
theories/LrModel.v
theories/LrSpec.v
theories/LrProofs.v
theories/LrKeyProofs.v
theories/LrProps.v
theories/ReprModel.v
theories/ReprSpec.v
theories/ReprProofs.v
theories/ReprProps.v
theories/LrSaveModel.v
theories/LrSaveSpec.v
theories/LrSaveProofs.v
theories/LrSaveProps.v
theories/CkptModel.v
theories/CkptSpec.v
theories/CkptProofs.v
theories/CkptProps.v
theories/ResumeModel.v
theories/ResumeSpec.v
theories/ResumeProofs.v
theories/ResumeProps.v
theories/FrameModel.v
theories/FrameProofs.v
theories/FrameProps.v
theories/SearchModel.v
theories/SearchSpec.v
theories/SearchProofs.v
theories/SearchProps.v
theories/FilterModel.v
theories/FilterSpec.v
theories/FilterProofs.v
theories/FilterProps.v
theories/UniqModel.v
theories/UniqSpec.v
theories/UniqProofs.v
theories/UniqProps.v
theories/BatchSetModel.v
theories/BatchSetSpec.v
theories/BatchSetProofs.v
theories/BatchSetProps.v
theories/BatchGenModel.v
theories/BatchGenSpec.v
theories/BatchGenProofs.v
theories/BatchGenProps.v
theories/DsChunkModel.v
theories/DsChunkSpec.v
theories/DsChunkProofs.v
theories/DsChunkProps.v
theories/JsonModel.v
theories/JsonSpec.v
theories/JsonProofs.v
theories/JsonProps.v
theories/ForwardModel.v
theories/ForwardSpec.v
theories/ForwardProofs.v
theories/ForwardProps.v
theories/StatsModel.v
theories/StatsSpec.v
theories/StatsProofs.v
theories/StatsProps.v
theories/Cached2Model.v
theories/Cached2Spec.v
theories/Cached2Proofs.v
theories/Cached2Props.v
theories/MultiEpochModel.v
theories/MultiEpochProofs.v
theories/MultiEpochProps.v
theories/ConcatSeqsModel.v
theories/ConcatSeqsSpec.v
theories/ConcatSeqsProofs.v
theories/ConcatSeqsProps.v
theories/CombinedModel.v
theories/CombinedSpec.v
theories/CombinedProofs.v
theories/CombinedProps.v
theories/OptimModel.v
theories/OptimSpec.v
theories/OptimProofs.v
theories/OptimProps.v
theories/BpeModel.v
theories/BpeSpec.v
theories/BpeProofs.v
theories/BpeSampleProofs.v
theories/BpeProps.v
theories/VocabModel.v
theories/VocabSpec.v
theories/VocabProofs.v
theories/VocabProps.v
theories/HdfModel.v
theories/HdfSpec.v
theories/HdfProofs.v
theories/HdfReadProofs.v
theories/HdfOkProofs.v
theories/HdfFileProofs.v
theories/HdfSizeProofs.v
theories/HdfCopyProofs.v
theories/HdfProps.v
theories/MetaModel.v
theories/MetaSpec.v
theories/MetaProofs.v
theories/MetaLoadProofs.v
theories/MetaProps.v
theories/DimModel.v
theories/DimSpec.v
theories/DimProofs.v
theories/DimDivProofs.v
theories/DimNameProofs.v
theories/DimProps.v
theories/FsaModel.v
theories/FsaSpec.v
theories/FsaProofs.v
theories/FsaProps.v
theories/EditModel.v
theories/EditSpec.v
theories/EditProofs.v
theories/EditProps.v
theories/DistTrainModel.v
theories/DistTrainSpec.v
theories/DistTrainProofs.v
theories/DistTrainProps.v
theories/AllocModel.v
theories/AllocSpec.v
theories/AllocProofs.v
theories/AllocProps.v
theories/PostprocModel.v
theories/PostprocSpec.v
theories/PostprocProofs.v
theories/PostprocDsProofs.v
theories/PostprocProps.v
theories/BwModel.v
theories/BwSpec.v
theories/BwConcProofs.v
theories/BwViterbiProofs.v
theories/BwProofs.v
theories/BwCtcProofs.v
theories/BwProps.v
theories/ConvModel.v
theories/ConvSpec.v
theories/ConvProofs.v
theories/ConvProps.v
theories/PadOpsModel.v
theories/PadOpsSpec.v
theories/PadOpsProofs.v
theories/PadOpsProps.v
theories/ScatterModel.v
theories/ScatterSpec.v
theories/ScatterProofs.v
theories/ScatterProps.v
theories/TensorModel.v
theories/TensorSpec.v
theories/TensorProofs.v
theories/TensorProps.v
theories/MatmulModel.v
theories/MatmulSpec.v
theories/MatmulProofs.v
theories/MatmulProps.v
theories/ReshapeModel.v
theories/ReshapeSpec.v
theories/ReshapeProofs.v
theories/ReshapeProps.v
theories/XentModel.v
theories/XentSpec.v
theories/XentProofs.v
theories/XentProps.v
theories/RelPosModel.v
theories/RelPosSpec.v
theories/RelPosProofs.v
theories/RelPosProps.v
theories/AttnModel.v
theories/AttnSpec.v
theories/AttnProofs.v
theories/AttnProps.v
theories/AssignModel.v
theories/AssignSpec.v
theories/AssignProofs.v
theories/AssignProps.v
theories/ReduceModel.v
theories/ReduceSpec.v
theories/ReduceProofs.v
theories/ReduceProps.v
theories/ArchiveModel.v
theories/ArchiveSpec.v
theories/ArchiveProofs.v
theories/ArchiveProps.v
theories/ConfigModel.v
theories/ConfigSpec.v
theories/ConfigProofs.v
theories/ConfigProps.v
theories/ScoreModel.v
theories/ScoreSpec.v
theories/ScoreProofs.v
theories/ScoreProps.v
theories/ExternModel.v
theories/ExternSpec.v
theories/ExternProofs.v
theories/ExternProps.v
theories/LoadModel.v
theories/LoadSpec.v
theories/LoadProofs.v
theories/LoadLoopProofs.v
theories/LoadTopProofs.v
theories/LoadMainProofs.v
theories/LoadProps.v
theories/ScanModel.v
theories/ScanSpec.v
theories/ScanProofs.v
theories/ScanProps.v
theories/ModTreeModel.v
theories/ModTreeSpec.v
theories/ModTreeProofs.v
theories/ModParamProofs.v
theories/ModSetProofs.v
theories/ModPtProofs.v
theories/ModTreeProps.v
theories/ModListModel.v
theories/ModListSpec.v
theories/ModListProofs.v
theories/ModListProps.v
theories/HooksModel.v
theories/HooksSpec.v
theories/HooksProofs.v
theories/HooksProps.v
theories/TrainProcModel.v
theories/TrainProcSpec.v
theories/TrainProcProofs.v
theories/TrainProcProps.v
theories/SprintModel.v
theories/SprintSpec.v
theories/SprintProofs.v
theories/SprintProps.v
theories/NormModel.v
theories/NormSpec.v
theories/NormProofs.v
theories/NormProps.v
theories/ParamModel.v
theories/ParamSpec.v
theories/ParamProofs.v
theories/ParamProps.v
theories/EdOpModel.v
theories/EdOpSpec.v
theories/EdOpProofs.v
theories/EdOpProps.v
theories/ChunkOpModel.v
theories/ChunkOpSpec.v
theories/ChunkOpProofs.v
theories/ChunkOpProps.v
theories/SameAsModel.v
theories/SameAsSpec.v
theories/SameAsProofs.v
theories/SameAsProps.v
theories/SpecAugModel.v
theories/SpecAugSpec.v
theories/SpecAugProofs.v
theories/SpecAugProps.v
theories/NccModel.v
theories/NccSpec.v
theories/NccProofs.v
theories/NccProps.v
theories/AvgModel.v
theories/AvgSpec.v
theories/AvgProofs.v
theories/AvgProps.v
theories/FCacheModel.v
theories/FCacheSpec.v
theories/FCacheProofs.v
theories/FCacheProps.v
theories/NestModel.v
theories/NestSpec.v
theories/NestProofs.v
theories/NestProps.v
theories/MapDsModel.v
theories/MapDsSpec.v
theories/MapDsProofs.v
theories/MapDsProps.v
theories/TextDictModel.v
theories/TextDictSpec.v
theories/TextDictProofs.v
theories/TextDictProps.v
theories/MSelModel.v
theories/MSelSpec.v
theories/MSelProofs.v
theories/MSelProps.v
theories/PipeModel.v
theories/PipeSpec.v
theories/PipeProofs.v
theories/PipeProps.v
theories/PcwModel.v
theories/PcwProofs.v
theories/PcwProps.v
theories/FwdOutModel.v
theories/FwdOutSpec.v
theories/FwdOutProofs.v
theories/FwdOutProps.v
theories/WalkModel.v
theories/WalkSpec.v
theories/WalkProofs.v
theories/WalkProps.v
theories/BuildModel.v
theories/BuildSpec.v
theories/BuildProofs.v
theories/BuildProps.v
theories/JournalModel.v
theories/JournalSpec.v
theories/JournalProofs.v
theories/JournalProps.v
theories/TDictModel.v
theories/TDictSpec.v
theories/TDictProofs.v
theories/TDictProps.v
theories/PprintModel.v
theories/PprintSpec.v
theories/PprintProofs.v
theories/PprintProps.v
