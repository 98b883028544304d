-Q theories Verif
theories/GraphModel.v
theories/GraphSpec.v
theories/GraphProofs.v
theories/GraphProps.v
theories/Str.v
theories/Path.v
theories/SMap.v
theories/PathProofs.v
theories/JsonModel.v
theories/JsonSpec.v
theories/JsonProofs.v
theories/JsonProps.v
theories/DbModel.v
theories/DepGraphModel.v
theories/DepGraphSpec.v
theories/DepGraphProofs.v
theories/DepGraphProps.v
theories/FileListModel.v
theories/FileListSpec.v
theories/FileListProofs.v
theories/FileListProps.v
theories/SchedModel.v
theories/SchedSpec.v
theories/SchedProofs.v
theories/TaskListModel.v
theories/TaskListSpec.v
theories/TaskListProofs.v
theories/SchedProps.v
theories/PoolModel.v
theories/PoolSpec.v
theories/PoolProofs.v
theories/PoolProps.v
theories/BuildModel.v
theories/BuildSpec.v
theories/BuildProofs.v
theories/BuildProps.v
theories/LexModel.v
theories/LexSpec.v
theories/LexProofs.v
theories/LexCheck.v
theories/LexProps.v
theories/IoModel.v
theories/IoProofs.v
theories/IoProps.v
theories/LoadModel.v
theories/LoadSpec.v
theories/LoadProofs.v
theories/LocProofs.v
theories/LoadProps.v
theories/ScanModel.v
theories/ScanSpec.v
theories/ScanProofs.v
theories/ScanProps.v
theories/ValueModel.v
theories/ValueSpec.v
theories/ValueProofs.v
theories/TimeProofs.v
theories/ValueProps.v
theories/CmdModel.v
theories/CmdSpec.v
theories/CmdProofs.v
theories/CmdProps.v
theories/JLoadModel.v
theories/JLoadSpec.v
theories/JLoadProofs.v
theories/JLoadProps.v
theories/LogModel.v
theories/LogSpec.v
theories/LogProofs.v
theories/LogProps.v
theories/ExecModel.v
theories/ExecSpec.v
theories/ExecProofs.v
theories/ExecProps.v
theories/FeedModel.v
theories/FeedSpec.v
theories/FeedProofs.v
theories/FeedProps.v
theories/RecipeModel.v
theories/RecipeSpec.v
theories/RecipeProofs.v
theories/RecipeProps.v
theories/OutputModel.v
theories/OutputProofs.v
theories/OutputProps.v
theories/MemModel.v
theories/MemSpec.v
theories/MemProofs.v
theories/MemProps.v
theories/OwnModel.v
theories/OwnSpec.v
theories/OwnProofs.v
theories/OwnProps.v
theories/CfgModel.v
theories/CfgSpec.v
theories/CfgProofs.v
theories/CfgProps.v
theories/MainModel.v
theories/MainSpec.v
theories/MainProofs.v
theories/MainExample.v
theories/MainProps.v
theories/ForkModel.v
theories/ForkSpec.v
theories/ForkProofs.v
theories/ForkRun.v
theories/ForkProps.v
theories/TreeModel.v
theories/TreeSpec.v
theories/TreeProofs.v
theories/TreeRun.v
theories/TreeProps.v
theories/AgainSpec.v
theories/AgainProofs.v
theories/AgainRun.v
theories/AgainProps.v
theories/Utf8Proofs.v
theories/KindModel.v
theories/KindSpec.v
theories/KindProofs.v
theories/KindProps.v
theories/FoundSpec.v
theories/FoundProofs.v
theories/FoundProps.v
theories/LinkSpec.v
theories/LinkProofs.v
theories/LinkRun.v
theories/LinkProps.v
theories/MakeModel.v
theories/MakeSpec.v
theories/MakeProofs.v
theories/MakeProps.v
theories/FailSpec.v
theories/FailProofs.v
theories/FailRun.v
theories/FailProps.v
theories/DocModel.v
theories/DocSpec.v
theories/DocProofs.v
theories/DocProps.v
theories/MarkModel.v
theories/MarkSpec.v
theories/MarkProofs.v
theories/MarkProps.v
theories/VcsModel.v
theories/VcsSpec.v
theories/VcsProofs.v
theories/VcsProps.v
theories/WriteModel.v
theories/WriteSpec.v
theories/WriteProofs.v
theories/WriteProps.v
theories/JobModel.v
theories/JobSpec.v
theories/JobProofs.v
theories/JobProps.v
theories/ShowModel.v
theories/ShowSpec.v
theories/ShowProofs.v
theories/ReportProofs.v
theories/ShowRun.v
theories/ShowProps.v
theories/HelpModel.v
theories/HelpSpec.v
theories/HelpProofs.v
theories/HelpProps.v
theories/SyncModel.v
theories/SyncSpec.v
theories/SyncProofs.v
theories/SyncProps.v
theories/AboutModel.v
theories/AboutSpec.v
theories/AboutProofs.v
theories/AboutProps.v
theories/TagSpec.v
theories/TagProofs.v
theories/TagProps.v
theories/StepSpec.v
theories/StepProofs.v
theories/StepProps.v
theories/WholeSpec.v
theories/WholeProofs.v
theories/WholeRun.v
theories/WholeProps.v
theories/DefaultModel.v
theories/DefaultSpec.v
theories/DefaultProofs.v
theories/DefaultRun.v
theories/DefaultProps.v
theories/ScriptModel.v
theories/ScriptSpec.v
theories/ScriptProofs.v
theories/ScriptRun.v
theories/ScriptProps.v
theories/DueSpec.v
theories/DueProofs.v
theories/DueProps.v
theories/MeanSpec.v
theories/MeanProofs.v
theories/MeanProps.v
theories/LocalSpec.v
theories/LocalProofs.v
theories/LocalBuildProofs.v
theories/LocalProps.v
theories/CleanSpec.v
theories/CleanProofs.v
theories/CleanRun.v
theories/CleanProps.v
theories/CxxModel.v
theories/CxxSpec.v
theories/CxxProofs.v
theories/CxxProps.v
theories/ConfSpec.v
theories/ConfProofs.v
theories/ConfProps.v
theories/StampModel.v
theories/StampSpec.v
theories/StampProofs.v
theories/StampReach.v
theories/StampProps.v
theories/SheetModel.v
theories/SheetSpec.v
theories/SheetProofs.v
theories/SheetLinks.v
theories/SheetContents.v
theories/SheetProps.v
theories/WhyModel.v
theories/WhySpec.v
theories/WhyProofs.v
theories/WhyProofs2.v
theories/WhyExample.v
theories/WhyProps.v
theories/ManModel.v
theories/ManSpec.v
theories/ManProofs.v
theories/ManProps.v
theories/SetupModel.v
theories/SetupSpec.v
theories/SetupProofs.v
theories/SetupProofs2.v
theories/SetupProofs3.v
theories/SetupProps.v
theories/LostModel.v
theories/LostSpec.v
theories/LostProofs.v
theories/LostProps.v
theories/FdModel.v
theories/FdSpec.v
theories/FdProofs.v
theories/FdProps.v
theories/IntegModel.v
theories/IntegSpec.v
theories/IntegProofs.v
theories/IntegProofs2.v
theories/IntegProofs3.v
theories/IntegProps.v
theories/PackModel.v
theories/PackSpec.v
theories/PackProofs.v
theories/PackProps.v
theories/PkgModel.v
theories/PkgSpec.v
theories/PkgProofs.v
theories/PkgProofs2.v
theories/PkgProps.v
theories/PackProps2.v
theories/TidyModel.v
theories/TidySpec.v
theories/TidyProofs.v
theories/TidyProps.v
theories/TrapModel.v
theories/TrapSpec.v
theories/TrapProofs.v
theories/TrapProofs2.v
theories/TrapProps.v
theories/WhereSpec.v
theories/WhereProofs.v
theories/WhereProps.v
