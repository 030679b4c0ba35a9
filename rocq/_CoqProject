-Q theories Verif
theories/DagModel.v
theories/CheckDagModel.v
theories/CheckDagSpec.v
theories/CheckDagProofs.v
theories/CheckDagProofs2.v
theories/CheckDagProofs3.v
theories/CheckDagProps.v
theories/SchedModel.v
theories/SchedSpec.v
theories/SchedSteps.v
theories/SchedWalk.v
theories/SchedExt.v
theories/SchedReach.v
theories/SchedView.v
theories/SchedView2.v
theories/SchedFiles.v
theories/SchedFiles2.v
theories/SchedFiles3.v
theories/SchedFiles4.v
theories/SchedCount.v
theories/SchedAux.v
theories/SchedProps.v
theories/SchedExamples.v
theories/CacheModel.v
theories/CacheSpec.v
theories/CacheProofs.v
theories/CacheProofs2.v
theories/CacheProps.v
theories/StoreIndexModel.v
theories/StoreIndexSpec.v
theories/StoreIndexProofs.v
theories/StoreIndexProps.v
theories/StoreModel.v
theories/StoreSpec.v
theories/StoreProofs.v
theories/StoreProofs2.v
theories/StoreProps.v
theories/CodecModel.v
theories/RestartModel.v
theories/RestartSpec.v
theories/RestartProofs.v
theories/RestartProps.v
theories/ProtoModel.v
theories/ProtoProps.v
theories/ClientModel.v
theories/ClientSpec.v
theories/ClientProofs.v
theories/ClientProofs2.v
theories/ClientProofs3.v
theories/ClientProps.v
theories/WorkerModel.v
theories/WorkerSpec.v
theories/WorkerProofs.v
theories/WorkerProofs2.v
theories/WorkerProofs3.v
theories/WorkerProofs4.v
theories/WorkerProps.v
theories/ServerModel.v
theories/ServerSpec.v
theories/ServerProofs.v
theories/ServerProofs2.v
theories/ServerProofs3.v
theories/ServerProps.v
theories/FloatModel.v
theories/FloatProofs.v
theories/ScoreModel.v
theories/ScoreSpec.v
theories/ScoreProofs.v
theories/ScoreReal.v
theories/ScoreProofs2.v
theories/ScoreProps.v
theories/ChecksModel.v
theories/ChecksSpec.v
theories/ChecksProofs.v
theories/ChecksProofs2.v
theories/ChecksProofs3.v
theories/ChecksProofs4.v
theories/ChecksProps.v
theories/FormatModel.v
theories/TaskModel.v
theories/FormatSpec.v
theories/FormatProofs.v
theories/FormatProofs2.v
theories/FormatProofs3.v
theories/FormatProofs4.v
theories/FormatProps.v
theories/TaskSpec.v
theories/TaskProofs.v
theories/TaskProps.v
theories/CasesSpec.v
theories/CasesProofs.v
theories/CasesProofs2.v
theories/CasesProofs3.v
theories/CasesProofs4.v
theories/CasesProps.v
theories/SandboxModel.v
theories/SandboxSpec.v
theories/SandboxProofs.v
theories/SandboxProofs2.v
theories/SandboxProps.v
theories/MiscModel.v
theories/MiscSpec.v
theories/MiscProofs.v
theories/MiscProps.v
theories/MiscProps2.v
theories/UiStateModel.v
theories/UiStateSpec.v
theories/UiStateProofs.v
theories/UiStateProofs2.v
theories/UiStateProofs3.v
theories/UiStateProps.v
theories/UiStateProps2.v
theories/UiStateProps3.v
theories/BuildModel.v
theories/BuildSpec.v
theories/BuildProofs.v
theories/BuildProofs2.v
theories/BuildProofs3.v
theories/BuildProofs4.v
theories/BuildProofs5.v
theories/BuildProofs6.v
theories/BuildProofs7.v
theories/BuildProofs8.v
theories/BuildProps.v
theories/LangModel.v
theories/LangSpec.v
theories/LangProofs.v
theories/LangProofs2.v
theories/LangProofs3.v
theories/LangProps.v
theories/TerryModel.v
theories/TerrySpec.v
theories/TerryProofs.v
theories/TerryProofs2.v
theories/TerryProps.v
theories/TerryUiModel.v
theories/TerryUiSpec.v
theories/TerryUiProofs.v
theories/TerryUiProps.v
theories/FindModel.v
theories/FindSpec.v
theories/FindProofs.v
theories/FindProofs2.v
theories/FindProofs3.v
theories/FindProps.v
theories/BadCaseModel.v
theories/BadCaseSpec.v
theories/BadCaseProofs.v
theories/BadCaseProofs2.v
theories/BadCaseProofs3.v
theories/BadCaseProofs4.v
theories/BadCaseProofs5.v
theories/BadCaseProps.v
theories/BadLoopModel.v
theories/BadLoopSpec.v
theories/BadLoopProofs.v
theories/BadLoopProofs2.v
theories/BadLoopProofs3.v
theories/BadLoopProofs4.v
theories/BadLoopProps.v
theories/SanityModel.v
theories/SanitySpec.v
theories/SanityProofs.v
theories/SanityProofs2.v
theories/SanityProofs3.v
theories/SanityProps.v
theories/OutputsModel.v
theories/OutputsSpec.v
theories/OutputsProofs.v
theories/OutputsProps.v
theories/LifeModel.v
theories/LifeSpec.v
theories/LifeProofs.v
theories/LifeProofs2.v
theories/LifeProofs3.v
theories/LifeProofs4.v
theories/LifeProofs5.v
theories/LifeProps.v
theories/HooksModel.v
theories/HooksSpec.v
theories/HooksProps.v
theories/AttModel.v
theories/AttSpec.v
theories/AttProofs.v
theories/AttProofs2.v
theories/AttProofs3.v
theories/AttProps.v
theories/AttProps2.v
theories/BookletModel.v
theories/BookletSpec.v
theories/BookletProofs.v
theories/BookletProps.v
theories/BookletProofs2.v
theories/BookletProps2.v
theories/BookletModel2.v
theories/BookletSpec2.v
theories/BookletProps3.v
theories/LatexModel.v
theories/LatexSpec.v
theories/LatexProps.v
theories/RegexModel.v
theories/RegexProofs.v
theories/StmtModel.v
theories/StmtSpec.v
theories/StmtProofs.v
theories/StmtProofs2.v
theories/StmtProofs3.v
theories/StmtProps.v
theories/StmtProps2.v
theories/GenBackModel.v
theories/GenBackSpec.v
theories/GenBackProofs.v
theories/GenBackProofs2.v
theories/GenBackProofs3.v
theories/GenBackProps.v
theories/ConnModel.v
theories/ConnSpec.v
theories/ConnProofs.v
theories/ConnProofs2.v
theories/ConnProps.v
theories/ReportModel.v
theories/ReportSpec.v
theories/ReportProofs.v
theories/ReportProofs2.v
theories/ReportProps.v
theories/FuzzModel.v
theories/FuzzSpec.v
theories/FuzzProofs.v
theories/FuzzProofs2.v
theories/FuzzProps.v
theories/LocateModel.v
theories/LocateSpec.v
theories/LocateProps.v
theories/SpanModel.v
theories/SpanSpec.v
theories/SpanProps.v
theories/DiagModel.v
theories/DiagSpec.v
theories/DiagProps.v
theories/ExeModel.v
theories/ExeSpec.v
theories/ExeProps.v
theories/JunkModel.v
theories/JunkSpec.v
theories/JunkProps.v
theories/SettingsModel.v
theories/SettingsSpec.v
theories/SettingsProofs.v
theories/SettingsProofs2.v
theories/SettingsProps.v
theories/DotModel.v
theories/DotSpec.v
theories/DotProofs.v
theories/DotProofs2.v
theories/DotProps.v
theories/PinProps.v
theories/PinProps2.v
theories/PinProps3.v
theories/InfoModel.v
theories/InfoSpec.v
theories/InfoProofs.v
theories/InfoProps.v
theories/OptModel.v
theories/OptSpec.v
theories/OptProofs.v
theories/OptProps.v
theories/CompModel.v
theories/CompSpec.v
theories/CompProofs.v
theories/CompProps.v
theories/StatusSpec.v
theories/StatusProofs.v
theories/StatusProps.v
theories/RunnerModel.v
theories/RunnerSpec.v
theories/RunnerProps.v
theories/ResetModel.v
theories/ResetSpec.v
theories/ResetProofs.v
theories/ResetProps.v
theories/CursesModel.v
theories/CursesSpec.v
theories/CursesProofs.v
theories/CursesProps.v
theories/EnvModel.v
theories/EnvSpec.v
theories/EnvProofs.v
theories/EnvProps.v
theories/ShellWordsModel.v
theories/ShellWordsSpec.v
theories/ShellWordsProofs.v
theories/ShellWordsProps.v
theories/AttDagModel.v
theories/AttDagSpec.v
theories/AttDagProofs.v
theories/AttDagProps.v
theories/PrintUiModel.v
theories/PrintUiSpec.v
theories/PrintUiProofs.v
theories/PrintUiRead.v
theories/PrintUiProps.v
