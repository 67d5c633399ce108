-Q theories Verif

theories/Base.v
theories/BaseProofs.v
theories/Data.v
theories/Cmd.v
theories/Infer.v
theories/UpToDate.v
theories/UpToDateSpec.v
theories/UpToDateProofs.v
theories/Graph.v
theories/Exec.v
theories/Front.v
theories/FrontSpec.v
theories/FrontProofs.v
theories/ExecSpec.v
theories/GraphProofs.v
theories/BuildProofs.v
theories/PruneProofs.v
theories/SchedInv.v
theories/TraceInv.v
theories/ExecProofs.v
theories/TermProofs.v
theories/TokenProofs.v
theories/ExecFacts.v
theories/ExecEx.v
theories/ExecProps.v
theories/ExecProps2.v
theories/UpToDateProps.v
theories/FrontProps.v
theories/InferSpec.v
theories/InferProofs.v
theories/InferProps.v
theories/Macro.v
theories/MacroSpec.v
theories/MacroProofs.v
theories/MacroProps.v
theories/Jobs.v
theories/JobsSpec.v
theories/JobsProofs.v
theories/JobsProps.v
theories/CmdSpec.v
theories/CmdProofs.v
theories/CmdProps.v
theories/PPExpr.v
theories/PPExprSpec.v
theories/PPExprProofs.v
theories/PPExprProps.v
theories/LineReader.v
theories/LineReaderSpec.v
theories/LineReaderProofs.v
theories/LineReaderProps.v
theories/PPLex.v
theories/PPLexSpec.v
theories/PPLexProofs.v
theories/PPLexProps.v
theories/Preproc.v
theories/PreprocSpec.v
theories/PreprocProofs.v
theories/PreprocReadProofs.v
theories/PreprocRunProofs.v
theories/PreprocTermProofs.v
theories/PreprocProps.v
theories/SplitCmd.v
theories/SplitCmdSpec.v
theories/SplitCmdProofs.v
theories/SplitCmdProps.v
theories/Opts.v
theories/OptsSpec.v
theories/OptsProofs.v
theories/OptsWordProofs.v
theories/OptsLineProofs.v
theories/OptsFlagsProofs.v
theories/OptsProps.v
theories/Env.v
theories/CmdExec.v
theories/CmdSys.v
theories/EnvSpec.v
theories/EnvProofs.v
theories/EnvProps.v
theories/CmdExecSpec.v
theories/CmdExecProofs.v
theories/CmdExecProps.v
theories/FileMacros.v
theories/FileMacrosSpec.v
theories/FileMacrosProofs.v
theories/FileMacrosProps.v
theories/MkParse.v
theories/MkLineSpec.v
theories/MkLineProofs.v
theories/MkLineProps.v
theories/RulesSpec.v
theories/RulesProofs.v
theories/RulesProps.v
theories/InlineSpec.v
theories/InlineProofs.v
theories/InlineProps.v
theories/FileCache.v
theories/FileCacheProofs.v
theories/FileCacheEx.v
theories/FileCacheProps.v
theories/Output.v
theories/OutputSpec.v
theories/OutputProofs.v
theories/OutputEx.v
theories/OutputProps.v
theories/ProcEnd.v
theories/ProcEndProps.v
theories/Main.v
theories/MainSpec.v
theories/MainProofs.v
theories/MainEx.v
theories/MainProps.v
theories/OriginProofs.v
theories/OriginProps.v
theories/ShellSpec.v
theories/ShellProofs.v
theories/ShellProps.v
theories/WrittenSpec.v
theories/WrittenProofs.v
theories/WrittenEx.v
theories/WrittenProps.v
theories/WrittenFileProps.v
theories/WholeProofs.v
theories/WholeProps.v
theories/InlineWholeProps.v
theories/Dump.v
theories/DumpSpec.v
theories/DumpProofs.v
theories/DumpProps.v
theories/TempFiles.v
theories/TempSpec.v
theories/TempProofs.v
theories/TempProps.v
theories/Handles.v
theories/HandlesSpec.v
theories/HandlesProofs.v
theories/HandlesProps.v
theories/StartSpec.v
theories/StartProps.v
theories/Display.v
theories/DisplaySpec.v
theories/DisplayProofs.v
theories/DisplayProps.v
theories/Print.v
theories/PrintSpec.v
theories/PrintProofs.v
theories/PrintProps.v
theories/WildSpec.v
theories/WildProofs.v
theories/WildProps.v
theories/Iocp.v
theories/IocpSpec.v
theories/IocpProofs.v
theories/IocpProps.v
theories/Poll.v
theories/PollSpec.v
theories/PollProofs.v
theories/PollProps.v
theories/SharedLiveSpec.v
theories/SharedLiveProofs.v
theories/SharedLiveProps.v
theories/Pipes.v
theories/PipesSpec.v
theories/PipesProps.v
theories/Nested.v
theories/NestedSpec.v
theories/NestedProofs.v
theories/NestedProps.v
