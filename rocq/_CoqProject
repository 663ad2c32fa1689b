-Q theories Verif
theories/Base.v
theories/DictFacts.v
theories/StepSizeModel.v
theories/StepSizeSpec.v
theories/StepSizeProofs.v
theories/StepSeriesProofs.v
theories/StepSeriesRun.v
theories/StepSizeExtra.v
theories/StepSizeProps.v
theories/GsdModel.v
theories/GsdSpec.v
theories/GsdProofs.v
theories/GsdReaders.v
theories/GsdProps.v
theories/XNum.v
theories/MolRelaxModel.v
theories/MolRelaxSpec.v
theories/MolRelaxProofs.v
theories/MolRelaxDefs.v
theories/MolRelaxProps.v
theories/WriteCacheModel.v
theories/WriteCacheSpec.v
theories/WriteCacheProofs.v
theories/WriteCacheProps.v
theories/ProcessModel.v
theories/ProcessSpec.v
theories/ProcessProofs.v
theories/ProcessProps.v
theories/RelaxationModel.v
theories/RelaxationSpec.v
theories/RelaxationProofs.v
theories/RelaxationProps.v
theories/RelaxFitModel.v
theories/RelaxFitSpec.v
theories/RelaxFitProofs.v
theories/RelaxExpProofs.v
theories/RelaxFullModel.v
theories/RelaxFitProps.v
theories/RelaxTableModel.v
theories/RelaxTableSpec.v
theories/RelaxTableProofs.v
theories/RelaxTableProps.v
theories/PyStr.v
theories/PyStrFacts.v
theories/FrameModel.v
theories/FrameSpec.v
theories/FrameProps.v
theories/LammpsModel.v
theories/LammpsSpec.v
theories/LammpsProofs.v
theories/LammpsProps.v
theories/ParamsModel.v
theories/FilenameProofs.v
theories/FilenameProps.v
theories/ProcessPathModel.v
theories/ProcessPathProps.v
theories/ParamsProps.v
theories/DirectoryProps.v
theories/RVec.v
theories/RVecFacts.v
theories/MotionModel.v
theories/MotionSpec.v
theories/MotionProofs.v
theories/MotionProps.v
theories/MotionAxis.v
theories/DynModel.v
theories/DynSpec.v
theories/DynProofs.v
theories/DynStruct.v
theories/DynProps.v
theories/DynPerm.v
theories/DynTrue.v
theories/OrderModel.v
theories/OrderSpec.v
theories/OrderProofs.v
theories/OrderProps.v
theories/MoleculeModel.v
theories/MoleculeSpec.v
theories/MoleculeProofs.v
theories/MoleculeProps.v
theories/UtilModel.v
theories/UtilSpec.v
theories/UtilProofs.v
theories/UtilProps.v
theories/ConfigModel.v
theories/ConfigSpec.v
theories/ConfigProofs.v
theories/ConfigProps.v
theories/FigureModel.v
theories/FigureSpec.v
theories/FigureProofs.v
theories/FigureProps.v
theories/MainModel.v
theories/MainSpec.v
theories/MainProofs.v
theories/MainProps.v
theories/RunModel.v
theories/RunSpec.v
theories/RunProps.v
theories/EndModel.v
theories/EndSpec.v
theories/EndProofs.v
theories/EndProps.v
theories/EndBox.v
theories/EndGsdModel.v
theories/EndGsdSpec.v
theories/EndGsdProofs.v
theories/EndGsdProps.v
theories/EndLammpsModel.v
theories/EndLammpsSpec.v
theories/EndLammpsProps.v
theories/EndAutoProps.v
theories/EndAutoFiles.v
theories/WaveModel.v
theories/WaveSpec.v
theories/WaveProofs.v
theories/WaveProps.v
theories/ThermoModel.v
theories/ThermoSpec.v
theories/ThermoProofs.v
theories/ThermoProps.v
theories/CommandModel.v
theories/CommandSpec.v
theories/CommandProofs.v
theories/CommandProps.v
theories/PipelineModel.v
theories/PipelineSpec.v
theories/PipelineProofs.v
theories/PipelineProps.v
theories/StatusModel.v
theories/StatusSpec.v
theories/StatusProps.v
theories/OpenModel.v
theories/OpenSpec.v
theories/OpenProps.v
theories/NeighModel.v
theories/NeighSpec.v
theories/NeighProofs.v
theories/NeighProps.v
theories/OrientSpec.v
theories/OrientProps.v
theories/LogModel.v
theories/LogSpec.v
theories/LogProps.v
theories/NewtonModel.v
theories/NewtonSpec.v
theories/NewtonProps.v
theories/ColumnProps.v
theories/DefSpec.v
theories/DefProps.v
theories/LammpsBadSpec.v
theories/LammpsBadProps.v
theories/EdgeProps.v
theories/PlotModel.v
theories/PlotProps.v
theories/UnitProps.v
theories/ClashModel.v
theories/ClashProps.v
theories/ReprModel.v
theories/ReprProps.v
theories/LabelProps.v
theories/FaultProps.v
theories/FloatModel.v
theories/FloatSpec.v
theories/FloatProps.v
theories/AliasModel.v
theories/AliasSpec.v
theories/AliasProps.v
theories/PipelineFormatProps.v
theories/InterruptSpec.v
theories/InterruptProps.v
theories/CutSpec.v
theories/CutProps.v
theories/SimProofs.v
theories/ShiftSpec.v
theories/ShiftProps.v
theories/ZoomSpec.v
theories/ZoomProps.v
theories/LateSpec.v
theories/LateProps.v
theories/SkipProps.v
theories/RenumberSpec.v
theories/RenumberProps.v
theories/TempoSpec.v
theories/TempoProps.v
theories/VoronoiModel.v
theories/VoronoiSpec.v
theories/VoronoiProps.v
theories/NeighMoveSpec.v
theories/NeighMoveProps.v
theories/OffersSpec.v
theories/OffersProps.v
theories/SessionModel.v
theories/SessionSpec.v
theories/SessionProps.v
theories/AxesSpec.v
theories/AxesProps.v
theories/MoreKeysSpec.v
theories/MoreKeysProps.v
theories/ContinueProps.v
theories/StoreModel.v
theories/StoreSpec.v
theories/StoreProps.v
theories/RepeatProps.v
theories/PartSpec.v
theories/PartProps.v
theories/OrderedSpec.v
theories/OrderedProps.v
theories/CopySpec.v
theories/CopyProps.v
theories/BackSpec.v
theories/BackProps.v
theories/TwiceSpec.v
theories/TwiceProps.v
