-Q theories Verif
theories/Base.v
theories/BaseLemmas.v
theories/BuilderModel.v
theories/BuilderSpec.v
theories/BuilderProofs.v
theories/BuilderSim.v
theories/BuilderProps.v
theories/RunnerModel.v
theories/RunnerSpec.v
theories/RunnerProofs.v
theories/RunnerRun.v
theories/RunnerMore.v
theories/RunnerPipeline.v
theories/RunnerEnd.v
theories/RunnerProps.v
theories/SpaceProofs.v
theories/SpaceProps.v
theories/OptionsModel.v
theories/OptionsSpec.v
theories/OptionsProofs.v
theories/OptionsProps.v
theories/Num.v
theories/FilterModel.v
theories/FilterSpec.v
theories/FilterProofs.v
theories/FilterProps.v
theories/PreprocModel.v
theories/PreprocSpec.v
theories/PreprocProofs.v
theories/PreprocProps.v
theories/Ext.v
theories/PrelimModel.v
theories/PrelimSpec.v
theories/PrelimProofs.v
theories/PrelimBound.v
theories/PrelimProps.v
theories/PrelimZModel.v
theories/PrelimZProps.v
theories/SiftedModel.v
theories/SiftedSpec.v
theories/SiftedProofs.v
theories/SiftedProps.v
theories/Mat.v
theories/PilotModel.v
theories/PilotSpec.v
theories/PilotProofs.v
theories/PilotProps.v
theories/PilotMxModel.v
theories/PilotMxSpec.v
theories/PilotMxProofs.v
theories/PilotMxProps.v
theories/CloisterModel.v
theories/CloisterSpec.v
theories/CloisterProofs.v
theories/CloisterProps.v
theories/EdgeSpec.v
theories/EdgeProofs.v
theories/EdgeProps.v
theories/PythiaModel.v
theories/PythiaZModel.v
theories/PythiaSpec.v
theories/PythiaProofs.v
theories/PythiaWeights.v
theories/PythiaProps.v
theories/PythiaZProps.v
theories/PythiaSummaryProps.v
theories/TraceModel.v
theories/TraceSpec.v
theories/TraceDbscan.v
theories/TraceProofs.v
theories/TracePurity.v
theories/TraceProps.v
theories/TracePipelineProps.v
theories/TraceBuildProps.v
theories/SerialModel.v
theories/SerialSpec.v
theories/SerialProofs.v
theories/SerialProps.v
theories/WebSpec.v
theories/WebProofs.v
theories/WebProps.v
theories/ObjectModel.v
theories/ObjectProps.v
theories/DefaultModel.v
theories/DefaultSpec.v
theories/DefaultProofs.v
theories/DefaultProps.v
theories/MetaModel.v
theories/MetaSpec.v
theories/MetaProps.v
theories/HandOnModel.v
theories/PipelineProps.v
theories/PlotProps.v
theories/EndModel.v
theories/EndProofs.v
theories/EndProps.v
theories/WholeModel.v
theories/WholeProps.v
theories/UniModel.v
theories/UniSpec.v
theories/UniProofs.v
theories/UniProps.v
theories/DrawModel.v
theories/DrawSpec.v
theories/DrawProofs.v
theories/DrawProps.v
theories/CrashModel.v
theories/CrashProofs.v
theories/CrashProps.v
theories/SavedModel.v
theories/SavedProps.v
theories/TablesProps.v
theories/FilesModel.v
theories/FilesProps.v
theories/WiringModel.v
theories/WiringProofs.v
theories/WiringProps.v
theories/RadiusModel.v
theories/RadiusSpec.v
theories/RadiusProofs.v
theories/RadiusProps.v
theories/MonoProofs.v
theories/MonoProps.v
theories/PythiaSepProps.v
theories/SiftedOutModel.v
theories/SiftedOutProps.v
theories/InstOrderSpec.v
theories/InstOrderProofs.v
theories/InstOrderProps.v
theories/OutputsModel.v
theories/OutputsSpec.v
theories/OutputsProofs.v
theories/OutputsProps.v
theories/UnitsSpec.v
theories/UnitsProofs.v
theories/UnitsProps.v
theories/AlgOrderSpec.v
theories/AlgOrderProofs.v
theories/AlgOrderProps.v
theories/InvarSpec.v
theories/InvarProofs.v
theories/InvarProps.v
theories/ScaleSpec.v
theories/ScaleProofs.v
theories/ScaleProps.v
theories/ScaleRProps.v
theories/CloInvSpec.v
theories/CloInvProofs.v
theories/CloInvProps.v
theories/PilotInvSpec.v
theories/PilotInvProofs.v
theories/PilotInvProps.v
theories/SiftInvSpec.v
theories/SiftInvProofs.v
theories/SiftInvProps.v
theories/SelectProps.v
theories/TraceAlgProps.v
theories/TraceMoveSpec.v
theories/TraceMoveProofs.v
theories/TraceMoveProps.v
theories/RepeatProps.v
theories/PluginModel.v
theories/PluginSpec.v
theories/PluginProofs.v
theories/PluginProps.v
theories/ColumnsSpec.v
theories/ColumnsProps.v
