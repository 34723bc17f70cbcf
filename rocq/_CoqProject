-Q theories Verif
theories/PyBase.v
theories/UtilsModel.v
theories/NamesModel.v
theories/PyFacts.v
theories/NamesProofs.v
theories/NamesProps.v
theories/ArchModel.v
theories/ArchProofs.v
theories/ArchProps.v
theories/UtilsProofs.v
theories/UtilsProps.v
theories/ViewRefsModel.v
theories/ViewRefsProofs.v
theories/ViewRefsProps.v
theories/ShapesModel.v
theories/ShapesProofs.v
theories/ShapesProps.v
theories/HubModel.v
theories/HubProofs.v
theories/HubProps.v
theories/LayoutModel.v
theories/LayoutProofs.v
theories/LayoutProps.v
theories/BuffersModel.v
theories/BuffersProofs.v
theories/BuffersProps.v
theories/TrainerModel.v
theories/TrainerProofs.v
theories/TrainerProps.v
theories/HooksModel.v
theories/HooksProps.v
theories/SchedulesModel.v
theories/SchedulesProps.v
theories/IteratorsModel.v
theories/IteratorsProps.v
theories/ToolsModel.v
theories/ToolsProps.v
theories/ScorersModel.v
theories/ScorersProps.v
theories/RandomModel.v
theories/RandomProps.v
theories/DescribeModel.v
theories/DescribeProps.v
theories/SaveModel.v
theories/SaveBase.v
theories/SaveProofs.v
theories/SaveProps.v
theories/NumBase.v
theories/NumpyModel.v
theories/NumpyProps.v
theories/LayersModel.v
theories/LayersProps.v
theories/LossProps.v
theories/BatchNormProps.v
theories/ModifiersModel.v
theories/ModifiersProps.v
theories/RecurrentModel.v
theories/RecurrentBase.v
theories/RecurrentProps.v
theories/LstmProps.v
theories/BackwardProps.v
theories/NetworkModel.v
theories/NetworkProps.v
theories/NetLayersModel.v
theories/NetLayersProps.v
theories/ContextModel.v
theories/ContextProps.v
theories/ClockLstmModel.v
theories/ClockLstmProps.v
theories/ContextMemProps.v
theories/ConvModel.v
theories/ConvBase.v
theories/ConvProps.v
theories/PoolModel.v
theories/PoolProps.v
theories/CudaModel.v
theories/CudaBase.v
theories/CudaProps.v
theories/CudaConvProps.v
theories/SetupModel.v
theories/PassShapesModel.v
theories/SetupProofs.v
theories/PassShapesProofs.v
theories/PassShapesLayers.v
theories/SetupProps.v
theories/InstanceProofs.v
theories/InstanceProps.v
theories/NetLayoutExtra.v
theories/NetLayoutProofs.v
theories/NetLayoutProps.v
theories/FlattenModel.v
theories/FlattenProofs.v
theories/FlattenProps.v
theories/ViewModel.v
theories/ViewProofs.v
theories/ViewProps.v
theories/MemoryPassModel.v
theories/MemoryPassProofs.v
theories/CellsProofs.v
theories/NetMemoryModel.v
theories/NetSizesProofs.v
theories/NetMemoryProofs.v
theories/NetMemoryProps.v
theories/NetPartsProofs.v
theories/NetForwardProofs.v
theories/NetForwardProps.v
theories/TrainNetModel.v
theories/TrainNetProofs.v
theories/TrainNetProps.v
theories/ModNetModel.v
theories/ModNetProofs.v
theories/ModNetProps.v
theories/EvalNetModel.v
theories/EvalNetProofs.v
theories/EvalNetProps.v
theories/LocalLayersProofs.v
theories/LocalNetProofs.v
theories/LocalNetProofs2.v
theories/LocalNetProps.v
theories/DataNetModel.v
theories/DataNetProps.v
theories/SpecModel.v
theories/SpecProofs.v
theories/SpecChain.v
theories/SpecNet.v
theories/SpecParse.v
theories/SpecProps.v
theories/LayoutExist.v
theories/LayoutExistProofs.v
theories/LayoutNet.v
theories/LayoutExistProps.v
theories/LayoutSpecProps.v
theories/TrainRunModel.v
theories/TrainRunProofs.v
theories/TrainRunProps.v
theories/ProgressModel.v
theories/ProgressProofs.v
theories/ProgressProps.v
theories/SaveBufModel.v
theories/SaveBufProps.v
theories/SigQuitModel.v
theories/SigQuitProps.v
theories/SaveLogsModel.v
theories/SaveLogsProps.v
theories/SpecInitModel.v
theories/SpecInitProps.v
