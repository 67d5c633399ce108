{"id": "C01", "title": "Dependents are finished before a target's commands start", "statement": "During a build, the first command of a target is started only after every target it (transitively) lists as a dependent, and which is part of the current build, has been completely dealt with: its last command has ended, or it was found up to date, or it has no commands (or, with /K, it was given up).", "quantifier": "all makefiles (acyclic dependency relation), all numbers of parallel jobs, all file-system states and clock values observed at every decision point, and all interleavings of command completions, job-token grants and event-loop turns", "why_tests_cant": "A race only shows in particular completion orders; there are exponentially many interleavings and unboundedly many graphs.", "anchors": ["src/jomlib/targetexecutor.cpp:TargetExecutor::startProcesses,buildNextTarget,findNextTarget,onChildFinished", "src/jomlib/dependencygraph.cpp:DependencyGraph::internalBuild,addEdge,removeLeaf,findAvailableTarget"]}
{"id": "C02", "title": "Never more than N commands at once", "statement": "A jom instance started with /J N never runs commands of more than N targets at the same time, and never runs two commands of the same target at the same time.", "quantifier": "all makefiles, all N >= 1, all interleavings", "why_tests_cant": "Depends on the event interleaving; a test sees one schedule.", "anchors": ["src/jomlib/targetexecutor.cpp:TargetExecutor::TargetExecutor,startProcesses,buildNextTarget,onChildFinished,numberOfRunningProcesses"]}
{"id": "C03", "title": "Each target is built at most once per requested target", "statement": "While one requested (command-line) target is being built, the commands of each target are started at most once, no matter how many targets list it as a dependent.", "quantifier": "all makefiles including diamond-shaped ones, all interleavings", "why_tests_cant": "Needs all graphs and all schedules.", "anchors": ["src/jomlib/dependencygraph.cpp:DependencyGraph::findAvailableTarget,removeLeaf", "src/jomlib/targetexecutor.cpp:TargetExecutor::findNextTarget,buildNextTarget"]}
{"id": "C04", "title": "A failing command stops the build with exit code 2", "statement": "Without /K, once a command has failed no further target is started, the targets already running are waited for, and jom's exit code is 2.", "quantifier": "all makefiles, all interleavings of failures, completions and token grants after the failure", "why_tests_cant": "The window between the failure and the exit has arbitrarily many event orders, including nested event loops.", "anchors": ["src/jomlib/targetexecutor.cpp:TargetExecutor::onChildFinished,startProcesses,buildNextTarget,waitForProcesses,waitForJobClient,finishBuild"]}
{"id": "C05", "title": "/K builds everything unrelated to a failure and nothing that depends on it", "statement": "With /K, a target that transitively depends on a failed target never runs its commands; when jom exits, every target of the last requested build that does not transitively depend on a failed one has been dealt with (run, up to date, or without commands); the exit code is 1 if any command failed and 0 otherwise.", "quantifier": "all makefiles, all sets of failing targets, all interleavings", "why_tests_cant": "Failure sets and schedules are unbounded.", "anchors": ["src/jomlib/targetexecutor.cpp:TargetExecutor::findNextTarget,onChildFinished,finishBuild", "src/jomlib/dependencygraph.cpp:DependencyGraph::markParentsRecursivlyUnbuildable,isUnbuildable"]}
{"id": "C06", "title": "Exit code 0 means everything was dealt with", "statement": "If jom exits with 0 after building the requested targets, then every target reachable from each requested target was run with success, or was up to date, or has no commands; no command failed; and no command is still running.", "quantifier": "all acyclic makefiles, all interleavings, any number of requested targets", "why_tests_cant": "Exit paths depend on the schedule; tests check a few graphs.", "anchors": ["src/jomlib/targetexecutor.cpp:TargetExecutor::startProcesses,finishBuild,onChildFinished", "src/jomlib/dependencygraph.cpp:DependencyGraph::internalBuild"]}
{"id": "C07", "title": "The scheduler never gets stuck and always terminates", "statement": "As long as the build is not finished there is always an event that makes progress (a turn of the event loop, a running command, or a pending token request), and when every started command ends and every token request is granted, the build ends after finitely many events.", "quantifier": "all acyclic makefiles, all interleavings", "why_tests_cant": "Liveness over all schedules cannot be observed by running finitely many of them.", "anchors": ["src/jomlib/targetexecutor.cpp:TargetExecutor::startProcesses,buildNextTarget,onChildFinished", "src/jomlib/jobclient.cpp:JobClient::asyncAcquire,onHelperAcquired"]}
{"id": "C08", "title": "The job limit holds across recursively started jom processes and tokens are never lost or invented", "statement": "All jom processes sharing one job server together never run more than N leaf commands, and an instance that has ended leaves the shared semaphore with exactly the tokens it found.", "quantifier": "all trees of jom instances sharing a server, all interleavings of their token requests, grants, releases and failures", "why_tests_cant": "Cross-process interleavings; the corner case needs a failure at the moment a token request is pending.", "anchors": ["src/jomlib/targetexecutor.cpp:TargetExecutor::startProcesses,onChildFinished,waitForJobClient", "src/jomlib/jobclient.cpp:JobClient", "src/jomlib/jobserver.cpp:JobServer::start", "src/app/main.cpp:initJobServer"]}
{"id": "C09", "title": "Up-to-date decision", "statement": "A target without dependents is up to date exactly if its file exists. A target with dependents is up to date exactly if its file exists and no dependent is newer than it, where a dependent that does not exist, or that is a target with commands and no file, counts as being modified now. Equal time stamps count as up to date. Files found through not yet applied inference rules count as additional dependents.", "quantifier": "all targets, dependents, time stamps and clock values", "why_tests_cant": "The space of time stamp combinations is unbounded.", "anchors": ["src/jomlib/dependencygraph.cpp:DependencyGraph::isTargetUpToDate", "src/jomlib/filetime.cpp:FileTime", "src/jomlib/fastfileinfo.cpp:FastFileInfo"]}
{"id": "C10", "title": "A missing or always-built dependent forces a rebuild", "statement": "If a dependent of a target does not exist as a file, or is a target with commands but without a file, the target's commands are executed.", "quantifier": "all time stamps, including ones in the future", "why_tests_cant": "Requires a target file whose time stamp is ahead of the clock, which tests do not create.", "anchors": ["src/jomlib/dependencygraph.cpp:DependencyGraph::isTargetUpToDate"]}
{"id": "C11", "title": "Dependency cycles are reported before anything is built", "statement": "If the targets reachable from a requested target contain a dependency cycle, jom reports it and executes nothing; if they do not, no cycle is reported. The check terminates on every makefile.", "quantifier": "all makefiles, all requested target lists, all spellings of target names", "why_tests_cant": "Needs all graphs and all ways two names can denote the same target.", "anchors": ["src/jomlib/parser.cpp:Parser::checkForCycles,Parser::resetCycleChecker,Parser::apply", "src/jomlib/dependencygraph.cpp:DependencyGraph::internalBuild", "src/jomlib/makefile.h:Makefile::target"]}
{"id": "C12", "title": "Commands of a target run in order and stop at the first intolerable exit code", "statement": "The commands of a target are executed in the order they are written; command k+1 is started only if command k ended with an exit code not above its tolerated maximum (0 by default, the number after '-', or unlimited for a bare '-', .IGNORE or /I; a crash counts as exit code 2); the target fails exactly if some command exceeded its maximum.", "quantifier": "all command lists and all exit codes of all started processes", "why_tests_cant": "All exit-code sequences; tests try a few.", "anchors": ["src/jomlib/commandexecutor.cpp:CommandExecutor::start,onProcessFinished,onProcessError,executeCurrentCommandLine", "src/jomlib/makefile.cpp:Command::evaluateModifiers"]}
{"id": "C13", "title": "Command modifiers", "statement": "Leading '@', '!' and '-' (with optional number) may be combined in any order and number; they set silent mode, per-dependent execution and the tolerated exit code and are removed; everything after the first character that is none of these is the command, unchanged.", "quantifier": "all strings", "why_tests_cant": "All strings.", "anchors": ["src/jomlib/makefile.cpp:Command::evaluateModifiers"]}
{"id": "C14", "title": "Macro expansion always terminates and reports recursion", "statement": "Expanding any string against any macro table terminates; it fails with the macro-recursion error exactly if a macro is needed while its own value is being expanded, and recursion is never reported otherwise.", "quantifier": "all macro tables (any nesting and mutual recursion) and all strings", "why_tests_cant": "All tables; termination is not testable.", "anchors": ["src/jomlib/macrotable.cpp:MacroTable::expandMacros,cycleCheckedMacroValue"]}
{"id": "C15", "title": "Macro expansion replaces exactly the macro references", "statement": "Expansion leaves text without '$' untouched, turns '$$' into '$' (or keeps it for deferred expansion), replaces $(NAME), the one-letter form $N and $(NAME:a=b) by the recursively expanded, substituted value, replaces undefined macros by nothing, and passes file name macros on for later expansion; a missing closing parenthesis, an empty name, a substitution without equals sign and a dollar sign before a character that is no name are errors.", "quantifier": "all strings and macro tables", "why_tests_cant": "All strings.", "anchors": ["src/jomlib/macrotable.cpp:MacroTable::expandMacros,parseSubstitutionStatement,applySubstitution"]}
{"id": "C16", "title": "Macro precedence", "statement": "A macro given on the command line cannot be changed by the makefile; an environment macro can be changed by the makefile unless /E is given; predefined macros do not replace a value the user gave in the environment.", "quantifier": "all sequences of macro definitions from all sources", "why_tests_cant": "All definition histories.", "anchors": ["src/jomlib/macrotable.cpp:MacroTable::setMacroValue,internalSetMacroValue,defineEnvironmentMacroValue,defineCommandLineMacroValue,predefineValue", "src/jomlib/makefilefactory.cpp:MakefileFactory::apply,readEnvironment"]}
{"id": "C17", "title": "Macros that come from environment variables are written back to the environment of the commands", "statement": "If a macro was defined from an environment variable and the makefile changes it, the commands see the changed environment variable.", "quantifier": "all definition histories", "why_tests_cant": "All histories of definitions.", "anchors": ["src/jomlib/macrotable.cpp:MacroTable::setMacroValueImpl,setEnvironmentVariable"]}
{"id": "C18", "title": "Conditional blocks select exactly one branch", "statement": "For every well-formed (nested) !IF/!ELSEIF/!ELSE/!ENDIF structure, the lines delivered by the preprocessor are exactly the lines of the first branch whose condition holds, at every nesting level, in order, and the text after !ENDIF is processed normally; !ELSE, !ELSEIF, !ENDIF without !IF and an unterminated !IF are errors.", "quantifier": "all nestings, all branch counts, all condition values", "why_tests_cant": "Unbounded nesting.", "anchors": ["src/jomlib/preprocessor.cpp:Preprocessor::parsePreprocessingDirective,skipUntilNextMatchingConditional,enterConditional,exitConditional,readLine"]}
{"id": "C19", "title": "Skipped branches have no effect", "statement": "Lines in a branch that is not selected can neither define macros, include files, stop the run, nor raise an error.", "quantifier": "all contents of skipped branches", "why_tests_cant": "All texts.", "anchors": ["src/jomlib/preprocessor.cpp:Preprocessor::skipUntilNextMatchingConditional,isPreprocessingDirective"]}
{"id": "C20", "title": "Include files: processed in place, cycles detected", "statement": "An included file's lines are delivered in place of the directive; including a file that is currently being read is reported as a cycle; hence the include depth never exceeds the number of files and reading terminates.", "quantifier": "all finite sets of files and include relations", "why_tests_cant": "Termination for all include graphs.", "anchors": ["src/jomlib/preprocessor.cpp:Preprocessor::internalOpenFile,readLine,findIncludeFile,basicReadLine"]}
{"id": "C21", "title": "Line continuation and comment lines", "statement": "A logical line is the concatenation of its physical lines where a trailing backslash is replaced by the join, '^' escapes the line end, and lines starting with '#' inside or outside a continuation are dropped; reading is independent of the internal buffer size and no character of the file is lost or duplicated.", "quantifier": "all file contents, all line lengths", "why_tests_cant": "Buffer-boundary behaviour needs all lengths.", "anchors": ["src/jomlib/makefilelinereader.cpp:MakefileLineReader::readLine_impl_local8bit,readLine_impl_unicode,growLineBuffer"]}
{"id": "C22", "title": "Preprocessor expressions follow the grammar", "statement": "The expression evaluator accepts exactly the sentences of the documented expression grammar and computes the value of the parse tree, with the documented operator grouping; everything else is a syntax error. It always terminates.", "quantifier": "all token sequences", "why_tests_cant": "The LALR tables are opaque numbers; only exploring all inputs shows they implement the grammar.", "anchors": ["src/jomlib/ppexpr_grammar.cpp", "src/jomlib/ppexprparser.cpp:PPExprParser::parse", "src/jomlib/ppexpr.g"]}
{"id": "C23", "title": "Evaluating an expression never crashes", "statement": "Evaluating any expression either yields a value or an error message; arithmetic faults (division by zero and the like) are reported as errors.", "quantifier": "all expressions and operand values", "why_tests_cant": "Corner values: modulo by zero, most negative number divided by -1, over-wide shifts.", "anchors": ["src/jomlib/ppexprparser.cpp:PPExprParser::parse", "src/jomlib/ppexpr.l"]}
{"id": "C24", "title": "File name macros in commands", "statement": "$@, $*, $**, $? and their D/B/F/R variants and substitutions in commands are replaced by the corresponding file names, quoted if they contain blanks; all other text of the command is unchanged; a command with '!' is run once per dependent, in order.", "quantifier": "all command texts, target names and dependent lists, including empty ones", "why_tests_cant": "All strings and lists.", "anchors": ["src/jomlib/makefile.cpp:DescriptionBlock::expandFileNameMacros,getFileNameMacroValues"]}
{"id": "C25", "title": "Inference rule choice", "statement": "For a target without own commands the rule applied is, among the rules whose to-extension and to-path match the target and whose inferred dependent exists, the one whose from-extension stands first in .SUFFIXES, and among equals the one defined last; rules whose from-extension is not in .SUFFIXES never apply.", "quantifier": "all rule lists, suffix lists, file-system states", "why_tests_cant": "All combinations and sort stability.", "anchors": ["src/jomlib/makefile.cpp:Makefile::applyInferenceRules,filterRulesByDependent,calculateInferenceRulePriorities", "src/jomlib/parser.cpp:Parser::findRulesByTargetName,preselectInferenceRules"]}
{"id": "C26", "title": "Batch mode covers every target exactly once and keeps ordering", "statement": "With batch-mode rules every target is put in exactly one batch, batches are non-empty, and a target depending on a member of a batch is started only after that batch's command has ended.", "quantifier": "all numbers of targets and jobs, all interleavings", "why_tests_cant": "Depends on rounding for all counts and on the schedule.", "anchors": ["src/jomlib/makefile.cpp:Makefile::applyInferenceRules(QList),applyInferenceRule(QList)", "src/jomlib/targetexecutor.cpp:TargetExecutor::findNextTarget"]}
{"id": "C27", "title": "Description blocks: separator, drive letters, quotes and comments", "statement": "A rule line is split at the first colon outside parentheses that is not part of a drive letter; names are split at blanks outside double quotes; a '#' outside quotes and not escaped by '^' starts a comment, an escaped one is a literal '#'; the first ';' outside quotes starts the in-line command.", "quantifier": "all lines", "why_tests_cant": "All strings.", "anchors": ["src/jomlib/parser.cpp:removeCommentsAndFindCommandSeparator,Parser::isDescriptionBlock,splitTargetNames"]}
{"id": "C28", "title": "Repeated rules for one target", "statement": "Dependents of all rules for a target accumulate in order; with ':' the first commands given are kept and later ones are dropped, with '::' all commands are kept in order; mixing ':' and '::' for one target is an error and never silently accepted.", "quantifier": "all sequences of rules", "why_tests_cant": "All histories of rule definitions.", "anchors": ["src/jomlib/parser.cpp:Parser::parseDescriptionBlock"]}
{"id": "C29", "title": "Target names are case- and slash-insensitive", "statement": "Looking up a target finds it irrespective of letter case and of '/' versus '\\' in the requested name, defining it twice in different case yields one target, and different names never collide.", "quantifier": "all names", "why_tests_cant": "All strings.", "anchors": ["src/jomlib/makefile.h:Makefile::append,Makefile::target"]}
{"id": "C30", "title": ".SYNC orders what stands before it ahead of what stands after it", "statement": "In a dependents list, every target listed after .SYNC gets all targets listed between the previous .SYNC and it as dependents, for all rules of the makefile.", "quantifier": "all dependents lists, all iteration orders of the internal hash table", "why_tests_cant": "The hash iteration order is randomised; a test sees one order.", "anchors": ["src/jomlib/parser.cpp:Parser::parseDescriptionBlock,Parser::apply"]}
{"id": "C31", "title": "Command line options", "statement": "Options may be given with '/' or '-' in any case, single-letter ones may be combined, /I overrides /K, the job count must be a number >= 1, unknown options are rejected, NAME=VALUE arguments define macros and everything else is a target, in order.", "quantifier": "all argument lists", "why_tests_cant": "All argument lists.", "anchors": ["src/jomlib/options.cpp:Options::readCommandLineArguments,handleCommandLineOption,expandCommandFiles"]}
{"id": "C32", "title": "MAKEFLAGS reproduces the options for recursive calls", "statement": "Starting jom with only the value of MAKEFLAGS of another instance gives the same settings for the inherited options as that instance has.", "quantifier": "all argument lists", "why_tests_cant": "All argument lists; order and repetition of options matter.", "anchors": ["src/jomlib/options.cpp:Options::handleCommandLineOption", "src/app/main.cpp:getCommandLineArguments"]}
{"id": "C33", "title": "Splitting command lines into arguments", "statement": "Splitting a command line at blanks, respecting double quotes, and quoting the parts again gives back the arguments: no argument is lost, merged or split if quotes are balanced.", "quantifier": "all strings / argument lists", "why_tests_cant": "All strings.", "anchors": ["src/jomlib/helperfunctions.cpp:splitCommandLine"]}
{"id": "C34", "title": "Buffered output of a command is printed completely and in order", "statement": "Everything a command writes to stdout and stderr while buffered is printed exactly once, per channel in the order written, and across channels in time order; output of two buffered commands is not interleaved, and at most one running command writes directly.", "quantifier": "all write histories and time stamps, all interleavings of command starts and ends", "why_tests_cant": "All histories.", "anchors": ["src/jomlib/jomprocess.cpp:Process::printBufferedOutput,setBufferedOutput", "src/jomlib/targetexecutor.cpp:TargetExecutor::onChildFinished"]}
{"id": "C35", "title": "Environment handling", "statement": "Environment variable names are case-insensitive: setting and reading with any spelling refers to the same variable, the environment block passed to processes has each variable once, and a `set` command executed by one target is visible to all commands started later.", "quantifier": "all sequences of set commands, all interleavings", "why_tests_cant": "All histories and interleavings.", "anchors": ["src/jomlib/processenvironment.h", "src/jomlib/jomprocess.cpp:createEnvBlock", "src/jomlib/commandexecutor.cpp:CommandExecutor::executeCurrentCommandLine,setEnvironment", "src/jomlib/targetexecutor.cpp:TargetExecutor::TargetExecutor"]}
{"id": "C36", "title": "Inline files: exact content and clean-up", "statement": "The text between a command with << and the terminating << is written unchanged (after macro expansion, with CR LF line ends) to the file before the command runs, each << of the command is replaced by its file's name, and files without KEEP are removed when the executor is reused or destroyed while files with KEEP stay.", "quantifier": "all command lines, any number of inline files", "why_tests_cant": "All texts.", "anchors": ["src/jomlib/parser.cpp:Parser::parseInlineFiles", "src/jomlib/commandexecutor.cpp:CommandExecutor::createTempFiles,cleanupTempFiles"]}
{"id": "C37", "title": "Dry run changes nothing", "statement": "With /N no process is started, every command that would be executed is printed, and no file is written.", "quantifier": "all makefiles", "why_tests_cant": "All makefiles.", "anchors": ["src/jomlib/commandexecutor.cpp:CommandExecutor::executeCurrentCommandLine,start,createTempFiles"]}
{"id": "C38", "title": "File time cache never hides a change made by the build", "statement": "Whenever the time stamp of a file is consulted for an up-to-date decision after a target producing it was built, the value is the current one, not one remembered from before.", "quantifier": "all builds and interleavings", "why_tests_cant": "Needs histories where a file is looked up, rebuilt and looked up again.", "anchors": ["src/jomlib/fastfileinfo.cpp:FastFileInfo::FastFileInfo,clearCacheForFile", "src/jomlib/targetexecutor.cpp:TargetExecutor::onChildFinished", "src/jomlib/dependencygraph.cpp:DependencyGraph::isTargetUpToDate"]}
{"id": "C39", "title": "/DUMPGRAPH only shows the graph", "statement": "With /DUMPGRAPH jom prints every dependency edge of the requested target and ends with exit code 0 without running a command.", "quantifier": "all makefiles", "why_tests_cant": "All graphs; also depends on the moment the event loop starts.", "anchors": ["src/jomlib/targetexecutor.cpp:TargetExecutor::apply", "src/jomlib/dependencygraph.cpp:DependencyGraph::dump", "src/app/main.cpp:main"]}
{"id": "C40", "title": "Several requested targets are all built, in order", "statement": "All targets requested on the command line are built one after the other in the given order unless a failure stops the build; file states are re-examined for every requested target.", "quantifier": "all lists of requested targets, all interleavings", "why_tests_cant": "All lists and schedules.", "anchors": ["src/jomlib/targetexecutor.cpp:TargetExecutor::apply,startProcesses", "src/jomlib/makefile.cpp:Makefile::invalidateTimeStamps"]}
{"id": "C41", "title": "A missing dependent stops the build before anything is run", "statement": "If some target needed for the requested target lists a dependent that is neither a target nor an existing file, jom ends with exit code 2 without running a command; otherwise the build begins.", "quantifier": "all makefiles, all file-system states, all requested targets", "why_tests_cant": "The missing name may be arbitrarily deep in an arbitrary graph, including cyclic and shared parts.", "anchors": ["src/jomlib/dependencygraph.cpp:DependencyGraph::build,internalBuild", "src/jomlib/targetexecutor.cpp:TargetExecutor::apply"]}
{"id": "C42", "title": "The only abnormal ends of a build", "statement": "While building, jom runs into a crash (null pointer, empty list, qFatal) only if the preparation of commands leaves none or a process cannot be launched (TargetExecutor alone also crashes if a later name is not a target, which the parser excludes); it recurses without end only with /K and cyclic dependencies; it throws only from command preparation or inference rules.", "quantifier": "all makefiles, options, file-system histories and interleavings", "why_tests_cant": "Absence of crashes in all states is a universal claim.", "anchors": ["src/jomlib/targetexecutor.cpp:TargetExecutor::startProcesses,buildNextTarget,findNextTarget,onChildFinished", "src/jomlib/dependencygraph.cpp:DependencyGraph::markParentsRecursivlyUnbuildable,removeLeaf", "src/jomlib/commandexecutor.cpp:CommandExecutor::start", "src/jomlib/parser.cpp:Parser::apply"]}
{"id": "C43", "title": "The scanner tables follow the lexical rules", "statement": "The generated automaton of the expression lexer splits every text exactly as the rules of ppexpr.l say: at each place the longest piece matched by a rule of the current start condition, by the first such rule; every text is split completely.", "quantifier": "all byte strings, all start conditions", "why_tests_cant": "All texts; the tables are generated numbers.", "anchors": ["src/jomlib/ppexpr-lex.inc:yylex", "src/jomlib/ppexpr.l:rules"]}
{"id": "C44", "title": "Written expressions are read back", "statement": "Tokens written with blanks between them (numbers, strings with doubled quotes, operators, DEFINED and EXIST tests, commands in brackets) are read back as exactly these tokens, so that an expression has the value of its tree; anything else is refused, and an expression does not depend on the ones before it.", "quantifier": "all token sequences, all layouts", "why_tests_cant": "Unbounded inputs.", "anchors": ["src/jomlib/ppexpr.l:actions", "src/jomlib/ppexprparser.cpp:PPExprParser::parse"]}
{"id": "C45", "title": "The first target is the default", "statement": "Without a target in the command line exactly the first target named in the makefile is asked for (.NOTPARALLEL does not count), and nothing if there is no target.", "quantifier": "all makefiles", "why_tests_cant": "All sequences of lines and rules.", "anchors": ["src/jomlib/makefile.h:Makefile::append,firstTarget", "src/jomlib/parser.cpp:Parser::apply,parseDescriptionBlock"]}
{"id": "C46", "title": ".NOTPARALLEL disables parallel execution", "statement": "A makefile with .NOTPARALLEL among the targets of some rule is executed with at most one command at a time whatever /J says; without it the number of jobs is not changed.", "quantifier": "all makefiles, options and interleavings", "why_tests_cant": "All sequences of rules and all schedules.", "anchors": ["src/jomlib/parser.cpp:Parser::parseDescriptionBlock", "src/app/main.cpp:main"]}
{"id": "C47", "title": "While commands are running, one of them writes directly", "statement": "Whenever at least one command executor has a target and the main loop is idle, at least one executor that has a target writes its output directly, so that output is never held back without something being shown.", "quantifier": "all numbers of jobs, all interleavings of command starts and ends", "why_tests_cant": "All interleavings.", "anchors": ["src/jomlib/targetexecutor.cpp:TargetExecutor::TargetExecutor,onChildFinished,buildNextTarget", "src/jomlib/jomprocess.cpp:Process::setBufferedOutput"]}
{"id": "C48", "title": "The end of every process is noticed and its exit code decides", "statement": "When the process of a command has ended, jom notices it, and the command has failed exactly if the exit code (2 for a crash) is above the tolerated maximum.", "quantifier": "all 32-bit exit codes and maxima", "why_tests_cant": "All exit codes; one of them makes jom wait for ever.", "anchors": ["src/jomlib/jomprocess.cpp:Process::tryToRetrieveExitCode,onProcessFinished", "src/jomlib/commandexecutor.cpp:CommandExecutor::onProcessFinished"]}
{"id": "C49", "title": "Exit codes of jom have one meaning each", "statement": "When jom ends by itself its exit code is 0 if everything requested was built (or only help or the version was asked for), 1 if a target failed under /K or an exception ended the build, 2 if a target failed or is missing or the makefile cannot be read, 3 if the job server or client cannot be started, 128 if the command line is wrong; no other exit code occurs.", "quantifier": "all command lines, makefiles, file systems and schedules", "why_tests_cant": "All command lines and makefiles.", "anchors": ["src/app/main.cpp:main", "src/jomlib/targetexecutor.cpp:TargetExecutor", "src/jomlib/makefilefactory.cpp:MakefileFactory::apply"]}
{"id": "C50", "title": "Only commands written in the makefile are run", "statement": "Every command of a target that is started is a command written for that target in the makefile or a command of an inference rule of the makefile; between reading and running only macros, file name macros and the names of inline files are put in, and the tolerated exit code and the silence of the command stay.", "quantifier": "all command lines, makefiles, file systems and schedules", "why_tests_cant": "All makefiles and schedules.", "anchors": ["src/jomlib/targetexecutor.cpp:TargetExecutor::buildNextTarget", "src/jomlib/makefile.cpp:Makefile::applyInferenceRule,DescriptionBlock::expandFileNameMacros", "src/jomlib/commandexecutor.cpp:CommandExecutor::start,createTempFiles"]}
{"id": "C51", "title": "The commands of a target are run one after the other as written", "statement": "The commands of a target are handled in the order they are written. An empty command or a comment does nothing; cd sets the directory of the commands behind it; set changes the environment; every other command becomes one process, started with the text of the command in which %% stands for %, directly or through the command processor if it needs one (redirection, builtin commands, environment references). The next command is handled only after the process has ended with an exit code that is tolerated; otherwise the target fails and nothing more of it is run.", "quantifier": "all command lists, directories, environments and exit codes", "why_tests_cant": "All command texts and all exit codes.", "anchors": ["src/jomlib/commandexecutor.cpp:CommandExecutor::start,executeCurrentCommandLine,onProcessFinished,exec_cd,spawn"]}
{"id": "C52", "title": "A makefile is read as it is written", "statement": "There is a grammar of makefiles (blank lines, dot directives, inference rules with their commands, description blocks with in-line and indented commands and inline files, comments, macros) such that every text of it is accepted, unless one target has rules of both kinds or a dependent has a wrong file name macro, and afterwards the targets have exactly the dependents and commands of their rules, the inference rules are there in order with their search paths, extensions and commands, and the directives have their effect on what follows.", "quantifier": "all makefile texts of the grammar, all macro tables", "why_tests_cant": "All texts.", "anchors": ["src/jomlib/parser.cpp:Parser::apply,isDotDirective,isInferenceRule,isDescriptionBlock,parseDescriptionBlock,parseInferenceRule,parseCommand,parseDotDirective,readLine"]}
{"id": "C53", "title": "From the text of the makefile to the order of the processes", "statement": "For a makefile text with directives, macros, included files, rules and directives for the parser: every command that a run of jom starts is written in the text, in a rule for its target or in an inference rule; when a command of a target is started, every target that the rules of the text list for it, directly or by way of other targets, has been dealt with and is not touched again; without targets on the command line the first target of the text is built and nothing else is asked for, and if jom ends with 0 it and all that is listed for it is up to date or was built.", "quantifier": "all makefile texts of the grammar (dependents without quotes and file name macros for the order), all environments, command lines, file systems and schedules", "why_tests_cant": "All texts and all interleavings; the property spans preprocessor, parser, graph and executor.", "anchors": ["src/app/main.cpp:main", "src/jomlib/preprocessor.cpp:readLine", "src/jomlib/parser.cpp:Parser::apply,preselectInferenceRules", "src/jomlib/targetexecutor.cpp:apply,startProcesses", "src/jomlib/dependencygraph.cpp:build,findAvailableTarget"]}
{"id": "C54", "title": "No temporary file is left behind, and none is removed too early", "statement": "Every file that jom writes for an inline text without KEEP is removed again by the executor that wrote it, at the latest when jom ends: when main returns, normally or after an exception, and when the user presses Ctrl-C. No executor removes a file that it has not written itself for an inline text without KEEP; all other files are left as they are. Between the writing of a file and its removal during the build the executor has finished with the target.", "quantifier": "all numbers of executors, targets, commands and inline texts, all interleavings of starts and ends of processes, all files changed by others in between, all ends of jom", "why_tests_cant": "Leaks depend on the way jom ends (return, exception, Ctrl-C, exit, abort) and on the moment; all interleavings of executors have to be considered.", "anchors": ["src/app/main.cpp:ConsoleCtrlHandlerRoutine,main", "src/jomlib/targetexecutor.cpp:removeTempFiles,~TargetExecutor", "src/jomlib/commandexecutor.cpp:~CommandExecutor,start,createTempFiles,cleanupTempFiles", "src/jomlib/dependencygraph.cpp:internalBuild"]}
{"id": "C55", "title": "Handles of processes are closed once, and children get only their own", "statement": "No handle of a pipe, process or thread is closed twice or without having been made. A child process gets its three standard handles, no other child gets any of them, and jom closes its own copies, so that the end of the output of a process is seen when that process and its children end. A child gets nothing but its three standard handles. When no process is running, every handle that was made is closed.", "quantifier": "all numbers of process objects, all sequences of starts, ends and destructions, all answers of Windows to starts", "why_tests_cant": "Handles that leak or are inherited by a wrong child are invisible in the result of a build; they matter after thousands of commands or when two processes run at the same time.", "anchors": ["src/jomlib/jomprocess.cpp:Pipe,safelyCloseHandle,setupPipe,start,onProcessFinished,~Process", "src/jomlib/commandexecutor.cpp:executeCurrentCommandLine"]}
{"id": "C56", "title": "Environment, predefined macros and job server at the start of jom", "statement": "The environment jom works with has exactly the variables of its own environment, with the value of the last line for a name, whatever the case of the letters. $(MAKE) and $(MAKEDIR) are the path of jom and its directory, in double quotes if there is white space in them, unless the user has fixed other values or given /R. jom creates a job server for as many jobs as it may run when it is not started by another jom, or when /J is given and differs from the number passed on; otherwise it shares the one of the other jom.", "quantifier": "all environments, command lines, paths and makefiles", "why_tests_cant": "Environments with repeated names, odd lines and nested jom processes with all combinations of /J cannot be enumerated.", "anchors": ["src/jomlib/makefilefactory.cpp:setEnvironment,encloseInDoubleQuotesIfNeeded,apply", "src/app/main.cpp:initJobServer,main", "src/jomlib/application.cpp:isSubJOM"]}
{"id": "C57", "title": "What /D shows about the targets of a build", "statement": "With /D jom prints exactly one line for each target of a build at the moment it is decided what becomes of it, in the order of the decisions; no target is shown twice for one requested target. A line begins with a blank if the target is up to date and with an asterisk otherwise, and contains the time stamp and the name of the target. The time stamp shown is that of the file, if it exists.", "quantifier": "all makefiles, file systems, schedules and command results", "why_tests_cant": "The lines depend on the schedule of the build and on every state of the file system.", "anchors": ["src/jomlib/dependencygraph.cpp:displayNodeBuildInfo,findAvailableTarget,isTargetUpToDate", "src/jomlib/targetexecutor.cpp:findNextTarget,startProcesses"]}
{"id": "C58", "title": "What /P prints", "statement": "From the listing printed with /P one can tell the macros and their values, the inference rules in their order with their paths, extensions and commands, and the targets with their dependents and commands, in whatever order the tables are printed: two makefiles with the same listing behave the same. The first line printed for an inference rule, written in a makefile, says the same rule.", "quantifier": "all macro tables, inference rules and targets, all orders in which the hash tables are iterated", "why_tests_cant": "Needs all pairs of makefiles and all texts that could be mistaken for another part of the listing.", "anchors": ["src/app/main.cpp:main", "src/jomlib/makefile.cpp:dumpTargets,dumpInferenceRules", "src/jomlib/macrotable.cpp:dump", "src/jomlib/parser.cpp:isInferenceRule,parseInferenceRule"]}
{"id": "C59", "title": "Wildcards among the dependents", "statement": "A dependent with a wildcard (an asterisk or a question mark that is not the name of a file name macro) is replaced by the files that match it, one dependent for each, in the order they are found; other dependents stay as they are. Each of these names denotes the file that was found: relative to the directory of the makefile for files in and below it, with the full name otherwise.", "quantifier": "all dependents, directories, file systems and orders of the files in a directory", "why_tests_cant": "Names of directories that begin like the one of the makefile, makefiles in other directories, all contents of the file system.", "anchors": ["src/jomlib/parser.cpp:containsWildcard,expandWildcards,parseDescriptionBlock", "src/jomlib/makefile.cpp:dirPath"]}
{"id": "C60", "title": "Results of reads reach the channel of the process that wrote", "statement": "The thread of the completion port hands the result of a read to the channel that started it only while the channel is registered, never after it is destroyed, and at most once. The process whose output it is, is the one that runs at that moment, no channel has two reads at a time on its buffer, and what is handed over of the output of a process is the beginning of what it wrote.", "quantifier": "all interleavings of the main thread, the thread of the completion port, the processes and the system, any number of executors and processes", "why_tests_cant": "The results of a read wait in a queue; which of them is handed over before a channel is registered again depends on the scheduler.", "anchors": ["src/jomlib/iocompletionport.cpp:registerObserver,unregisterObserver,run", "src/jomlib/jomprocess.cpp:Process::start,onProcessFinished,OutputChannel::startRead,completionPortNotified"]}
{"id": "C61", "title": "Ends of processes are reported once, with their own exit codes", "statement": "A process object that starts process after process reports the end of each exactly once, after it has ended and before the next is started, with the exit code of that process, whatever calls for the exit code are left over from earlier processes. When no process runs, no calls are left.", "quantifier": "all interleavings of starts, ends, queued calls and timers, any number of processes and exit codes", "why_tests_cant": "Calls come from two channels, a notifier and timers, in any order; leftovers show only as load after many processes.", "anchors": ["src/jomlib/jomprocess.cpp:tryToRetrieveExitCode,onProcessFinished,Process::start,completionPortNotified"]}
{"id": "C62", "title": "Jom processes sharing a job server do not wait for each other for ever", "statement": "As long as one of the jom processes that share a job server has not ended, one of them can go on, or a command that is not a jom process runs whose end one of them waits for.", "quantifier": "all trees of jom processes sharing a server, all numbers of jobs and executors, all interleavings of their token requests, grants, releases, failures and ends", "why_tests_cant": "It needs nested jom processes, a failure while a token request is pending and one order of grants among the processes; the effect is a build that hangs.", "anchors": ["src/jomlib/targetexecutor.cpp:TargetExecutor::startProcesses,onChildFinished,waitForProcesses,waitForJobClient", "src/jomlib/jobclient.cpp:JobClient", "src/app/main.cpp:initJobServer"]}
{"id": "C63", "title": "Both ends of a pipe belong together", "statement": "When setupPipe succeeds, the end for writing is the other end of the pipe that has been made for jom, never the pipe of another program; when another program connects to jom's pipe first the call fails.", "quantifier": "all random numbers, all named pipes of other programs, everything other programs do between the calls, up to 1000 attempts", "why_tests_cant": "Collisions of random names and a second program that connects between two calls cannot be provoked by a test; the effect is output written to a stranger.", "anchors": ["src/jomlib/jomprocess.cpp:setupPipe"]}
{"id": "C64", "title": "A jom started by jom finds its job server", "statement": "A jom started by the commands of another jom uses the job server of that one, whatever its makefile and its command line define, unless it is told a different number of jobs, in which case it creates a server of its own; servers of different processes have different keys.", "quantifier": "all makefiles, command lines, environments, numbers of jobs, process ids and random numbers", "why_tests_cant": "The two variables pass through the environment, the command line, the predefined macros, the makefile and the preprocessor of the second jom; any definition of a macro could change them, and the effect is only a wrong number of jobs.", "anchors": ["src/jomlib/jobserver.cpp:JobServer::start", "src/app/main.cpp:initJobServer"]}
