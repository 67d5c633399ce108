# Formal model of jom in Rocq

## How the files are organised

`rocq/theories/` (logical name `Verif`). For each area there is

* `X.v`        the model: total Gallina functions and relations, one per C++ function, each with a comment citing
               file and lines in `/repo`; simplifications are said there;
* `XSpec.v`    an independent specification, written without the helpers of the model;
* `XProofs.v`  lemmas (for the scheduler also `SchedInv.v`, `ExecFacts.v`, `TraceInv.v`, `PruneProofs.v`, `BuildProofs.v`,
               `TermProofs.v`, `TokenProofs.v`; for main `OriginProofs.v`);
* `XEx.v`      (where useful) an executable check of the specification, used only in examples;
* `XProps.v`   only the property theorems, beside each a concrete `Example` meeting its hypotheses, and
               `Print Assumptions` for each theorem.

Naming: `Cnn_…` belongs to property `Cnn`. A theorem ending in `_partial` needs a hypothesis the property does not
have; the comment above it says which. One ending in `_refuted` shows a witness, computed by the model, for which the
property is false.

Data: a `QChar` is an `N` (UTF-16 code unit), a `QString` a `list N`; file times are `N` (0 = invalid, as in
`FileTime`). Hash tables that the code iterates over are lists in an arbitrary order given by the quantifier of the
theorem. Pointers to targets are their keys in the target table. Loops with no structural measure are fuelled and
return a distinct out-of-fuel value; theorems exclude it, or prove that some fuel suffices. Undefined behaviour of
C++ is a distinct outcome, never a default value.

The outside world (file system, clock, child processes, other jom processes, the shared semaphore, the second thread)
is an arbitrary input at every step of the transition systems: every theorem about builds quantifies over all of them.

## What is modelled

| file | code | what it is |
|------|------|------------|
| `Base.v` | Qt | QString functions used by jom; case and classes of Latin-1 characters |
| `Data.v` | makefile.h | description blocks, commands, rules, inline files, makefile, options of a build |
| `Cmd.v` | makefile.cpp:79-112 | command modifiers |
| `FileMacros.v` | makefile.cpp:128-361 | `$@ $* $** $? $<`, letters, substitutions, `!` |
| `Infer.v` | makefile.cpp:391-669 | choice and application of inference rules, batches |
| `UpToDate.v` | dependencygraph.cpp:103-180 | up-to-date decision |
| `Graph.v` | dependencygraph.cpp | build of the graph, leaves, removal, choice of the next target |
| `Front.v` | parser.cpp:110-157, 643-754 | end of parsing: .SYNC, cycle check, preselection of rules |
| `MkParse.v` | parser.cpp:53-110, 159-641 | the parser of makefiles |
| `LineReader.v` | makefilelinereader.cpp | physical lines, comments, continuation, buffers |
| `Preproc.v` | preprocessor.cpp | directives, conditions, include, inline mode |
| `PPExpr.v` | ppexpr_grammar.cpp, ppexprparser.cpp | LALR tables number by number, the automaton, the actions |
| `PPLex.v` | ppexpr-lex.inc, ppexpr.l | scanner tables number by number, the scanner, the actions |
| `Macro.v` | macrotable.cpp | macro table and expansion |
| `Opts.v` | options.cpp, main.cpp:99-113 | command line, command files, MAKEFLAGS |
| `SplitCmd.v` | helperfunctions.cpp:31-61 | splitting of a line into arguments |
| `Env.v` | processenvironment.h, jomprocess.cpp:211-281 | environment of processes, environment block |
| `CmdExec.v`, `CmdSys.v` | commandexecutor.cpp | one command executor; several of them |
| `TempFiles.v` | main.cpp:86-97, targetexecutor.cpp:274-283, commandexecutor.cpp:66-69 | temporary files when jom ends; Ctrl-C |
| `Handles.v` | jomprocess.cpp:57-85, 114-146, 166-175, 283-409, 423-444 | handles of pipes and processes, what children inherit |
| `Pipes.v` | jomprocess.cpp:283-345 | names of pipes, attempts, the two ends |
| `Nested.v` | jobserver.cpp:46-63, main.cpp:196-213 | key of a server, the variables for the commands |
| `Exec.v` | targetexecutor.cpp, jobclient.cpp | the scheduler as a transition system |
| `Jobs.v` | jobserver.cpp, jobclient.cpp, main.cpp:115-149 | several jom processes and one semaphore |
| `FileCache.v` | fastfileinfo.cpp | cache of file times |
| `Output.v` | jomprocess.cpp:55-203, 411-444, 522-568 | output channels, two threads |
| `ProcEnd.v` | jomprocess.cpp:411-444 | how the end of a process is noticed |
| `Dump.v` | dependencygraph.cpp:220-253, targetexecutor.cpp:106-114 | /DUMPGRAPH and /DUMPGRAPHDOT |
| `Display.v` | dependencygraph.cpp 300-356 | what /D shows during a build |
| `Print.v` | main.cpp 187-194, macrotable.cpp 369-375, makefile.cpp 458-496 | the listing of /P |
| `Iocp.v` | iocompletionport.cpp 44-114, jomprocess.cpp 166-175, 347-444, 470-545 | queue of the completion port, channels of one executor used by process after process |
| `Poll.v` | jomprocess.cpp 115-163, 397-444 | the calls that ask for the exit code, from channels, notifier and timers |
| `Main.v` | main.cpp, makefilefactory.cpp, application.cpp | the whole program up to and with the event loop |

Not modelled: the texts of messages other than those named in theorems; names of pipes that are in use and pipes that
cannot be made (jomprocess.cpp:288-321); `jomprocess_qt.cpp` (the variant for other systems); iocompletionport.cpp where the port
itself cannot be made (32-62); the message of the Ctrl-C handler and the event it passes on (main.cpp:89-91); the text of a time stamp (filetime.cpp:66-79); letters
outside of Latin-1; running out of memory; character encodings of files.

## Properties, model and proof

| id | status | theorems in | how |
|----|--------|-------------|-----|
| C01 | proved | `ExecProps.v` | inductive invariant: remaining edges are the original ones among remaining nodes; running targets are leaves |
| C02 | proved | `ExecProps.v` | invariant: running and free executors together are N |
| C03 | proved | `ExecProps.v` | history of started targets is duplicate-free per requested target |
| C04 | partial | `ExecProps.v` | invariant on the aborted flag, with the nested event loop |
| C05 | proved | `ExecProps.v` | Unbuildable means a failed target below; acyclicity |
| C06 | proved | `ExecProps.v` | drained-graph argument with acyclicity |
| C07 | partial | `ExecProps2.v` | progress, and termination by a lexicographic measure |
| C08 | partial | `JobsProps.v` | conservation of tokens over all processes |
| C09 | partial | `UpToDateProps.v` | function equals a declarative decision |
| C10 | partial | `UpToDateProps.v` | consequence of the decision, and its place in builds |
| C11 | partial | `FrontProps.v` | soundness and completeness against paths |
| C12 | proved | `ExecProps2.v` | the trace for all sequences of exit codes |
| C13 | proved | `CmdProps.v` | function equals a grammar of modifiers |
| C14 | proved | `MacroProps.v` | fuel bounded by the number of macros; error iff a cycle is met |
| C15 | partial | `MacroProps.v` | equal to a reading by segments |
| C16 | partial | `MacroProps.v` | invariants over all definition histories |
| C17 | partial | `MacroProps.v` | no definition reaches the environment |
| C18 | proved | `PreprocProps.v` | induction over the block structure |
| C19 | partial | `PreprocProps.v` | all effects of a skipped line |
| C20 | partial | `PreprocProps.v` | duplicate-free include stack; fuel bound |
| C21 | partial | `LineReaderProps.v`, `PreprocProps.v` | specification without buffers |
| C22 | proved | `PPExprProps.v` | LR automaton: soundness and completeness against the grammar |
| C23 | partial | `PPExprProps.v` | exact set of faults |
| C24 | partial | `FileMacrosProps.v` | independent reading of commands |
| C25 | partial | `InferProps.v` | the chosen rule is minimal and last |
| C26 | partial | `InferProps.v` | partition of the members |
| C27 | partial | `MkLineProps.v` | specification of separators, comments, names |
| C28 | proved | `RulesProps.v` | fold over rule histories |
| C29 | partial | `RulesProps.v` | lookup by folded names |
| C30 | partial | `RulesProps.v` | groups and edges |
| C31 | proved | `MainProps.v`, `OptsProps.v` | grammar of command lines, unambiguous |
| C32 | partial | `OptsProps.v` | round trip through the written flags |
| C33 | partial | `SplitCmdProps.v` | round trip of words |
| C34 | partial | `OutputProps.v` | merge is a shuffle that keeps orders; two threads interleaved |
| C35 | partial | `EnvProps.v` | map laws; all executors agree |
| C36 | partial | `CmdExecProps.v`, `InlineProps.v`, `InlineWholeProps.v`, `OriginProps.v` | reading of inline files; story of files; both in one theorem |
| C37 | partial | `CmdExecProps.v`, `MainProps.v` | effects of dry runs, from main on |
| C38 | partial | `FileCacheProps.v` | coherence invariant of the cache |
| C39 | partial | `DumpProps.v`, `ExecProps2.v` | printed lines as a walk of the graph; edges of the digraph; witness |
| C40 | proved | `ExecProps2.v` | order of requested targets in the history |
| C41 | proved | `ExecProps2.v` | graph build |
| C42 | proved | `ExecProps2.v`, `FrontProps.v`, `MainProps.v` | all abnormal outcomes of every function |
| C43 | proved | `PPLexProps.v` | derivatives of regular expressions along the automaton |
| C44 | partial | `PPLexProps.v` | printer and reader |
| C45 | proved | `RulesProps.v` | history of rules |
| C46 | proved | `MainProps.v`, `RulesProps.v` | flag and number of jobs, from main on |
| C47 | proved | `OutputProps.v` | invariant of the channels |
| C48 | partial | `ProcEndProps.v` | all sequences of answers |
| C49 | proved | `MainProps.v` | all ends of main |
| C50 | proved | `OriginProps.v` | origin invariant from parser to process |
| C51 | proved | `ShellProps.v` | story of a target as a relation |
| C52 | proved | `WrittenFileProps.v`, `WrittenProps.v` | grammar of makefiles, reader follows it |
| C53 | proved | `WholeProps.v` | composition of C52, C50 and C01 along main |
| C54 | partial | `TempProps.v` | invariant of files written, remembered and removed |
| C55 | partial | `HandlesProps.v` | invariant of handle variables against the history |
| C56 | proved | `StartProps.v` | last line wins, induction from the end; case analysis of initJobServer |
| C57 | partial | `DisplayProps.v` | invariant between history and lines shown |
| C58 | partial | `PrintProps.v` | the listing as a list of lines, read from the left |
| C59 | partial | `WildProps.v` | reader of wildcards against positions; names of files against QDirIterator |
| C60 | partial | `IocpProps.v` | invariant of the reads under way and in the queue, executions as step lists |
| C61 | partial | `PollProps.v` | invariant of handle, state and exit code against the history; counting of calls |
| C62 | partial | `SharedLiveProps.v` | counting of tokens and commands when no process can move |
| C63 | partial | `PipesProps.v` | the attempts before the last are skipped; the name stays with its pipe |
| C64 | partial | `NestedProps.v` | environment kept by every step of the reader; number written and read again |

## Findings

Everything in this list is a consequence of the model; where a theorem is named, the witness is computed in Coq.

Scheduler and processes
* A command following the one jom waits for may still be running when jom ends after a failure (`C04_refuted`).
* When jom ends by exit(2), because a later requested target has a dependent that does not exist, or by qFatal, the temporary
  files of inline texts stay (`C54_exit_refuted`, `C54_abort_refuted`); Ctrl-C between writing and remembering a file leaves it
  behind (`C54_ctrl_c_refuted`).
* A process with exit code 259 is never seen to end: jom hangs (`C07_refuted`, `C48_still_active_refuted`).
* Ending with code 2 while a token is awaited invents a token; the limit N is exceeded (`C08_refuted`). Ending with code 2 while two commands still
  run (`C04_refuted`) loses a token (`C08_lost_refuted`).
* /DUMPGRAPH builds the targets (`C39_refuted`); printing a graph with a cycle through an alias does not end.
* Under /K, marking the parents of a failed target recurses for ever if the graph has a cycle (`C42_endless_recursion`).
* Only the first member of a batch carries the command; targets depending on the others may start too early
  (`C26_order_refuted`).
* Dependents inferred by rules are not in the graph before the rule is applied.
* A target run for a second requested target keeps the names of the temporary files of the first run
  (`C36_second_run_refuted`, `C36_second_root_refuted`).
* An exception while a target is prepared ends jom with code 1 while other processes still run.
* A makefile with .NOTPARALLEL still creates a job server with N tokens for the jom processes started by commands.
* A jom process started by a command without /J keeps as many executors as there are processors.
* A command that cannot be started directly and is then given to the shell leaves six handles open
  (`C55_leak_refuted`), which later children inherit (`C55_inherited_refuted`).
* C57: with /D the lines of existing files that are out of date show the first of January 1601, because the check clears the
  time stamp before it is printed (`C57_time_refuted`).
* C58: the listing of /P has neither the modifiers of commands nor the contents of inline files (`C58_modifiers_refuted`); a search
  path written with two separators at its end is read as another one from the listing (`C58_rule_line_refuted`).
* C59: a pattern for files in C:/xy, in a makefile in C:/x, becomes names like y\\a.c (`C59_beside_refuted`); with a makefile in another
  directory than the current one patterns become names of files that do not exist (`C59_other_directory_refuted`).
* C60: the key of a result in the completion port is the address of the channel, which is the same for all processes of an executor. A
  result that is still in the queue when a process is found to have ended is handed over to the next one if that registers the channel
  first; then two reads use one buffer (`C60_stale_refuted`). A process that cannot be started leaves its read and its registration
  behind (`C60_failed_start_refuted`).
* C61: both channels of a process ask for its exit code when their pipes break, and every question that finds no exit code is asked again
  after 250 ms, also when there is no process any more. So timers are left over: as many as processes, in the worst case
  (`C61_left_refuted`). A process that ends with 259 is never reported (`C61_259_refuted`, as in C48).
* C62: jom processes can wait for each other for ever (`C62_refuted`, three processes, /J1 outside;
  `C62_same_jobs_refuted`, four processes with /J3). A process that gives up after a failure
  while a request for a token is pending waits for its commands first; the request takes a token meanwhile and keeps it
  until the commands end. A jom process among these commands may be waiting for just that token. As many such processes as there are jobs are needed (`C62_goes_on_partial`).
* C63: after 1000 names of pipes that are in use setupPipe succeeds without a pipe of its own and opens that of another program for
  writing (`C63_other_refuted`); the read handle is invalid.
* C64: `_JOMSRVKEY_=x` on the command line of a jom started by jom takes the place of the key (`C64_macro_refuted`); in a makefile it
  does not.

Files
* A target or dependent from the future breaks the up-to-date decision (`C09_refuted`, `C10_refuted`).
* Second outputs of a command, and other spellings of its target, keep their old times in the cache
  (`C38_second_output_refuted`, `C38_spelling_refuted`).
* In a dry run inline files are written (`C37_written_refuted`), and what only becomes out of date by rebuilding is
  not printed (`C37_incomplete_refuted`).

Reading makefiles
* A cycle through a name that is relative to the makefile's directory is not seen by the cycle check (`C11_refuted`).
* !UNDEF removes command-line macros; predefined macros replace those from the environment; an environment variable
  with a reference in its name loses its protection (`C16_*_refuted`). Macros are never written back to the
  environment (`C17_refuted`).
* Macros are expanded in skipped lines (`C19_refuted`). A file that ends in a continued !INCLUDE of itself is read
  for ever (`C20_terminates_refuted`). A second !ELSE is accepted (`C18_two_else_refuted`).
* A carriage return as last byte of the buffer stays in the line (`C21_crlf_refuted`).
* Expressions: remainder by zero, INT_MIN / -1, large shifts and overflow (`C23_refuted`); two EXIST on a line are one
  match (`C44_exist_refuted`); unknown characters and open strings are accepted (`C44_garbage_refuted`). The
  operators `&&`, `||`, `&`, `|` all have the same precedence.
* Substitutions with a caret lose characters (`C15_caret_refuted`); the last `=` of a substitution counts.
* File name macros: ten corners (`C24_*_refuted`), among them a crash (`C24_crash_refuted`, `C42_crash_program`) and
  an expansion that never ends (`C24_hang_refuted`).
* Lines: `^#` keeps its caret (`C27_caret_refuted`); one-letter targets are drive letters (`C27_one_letter_refuted`);
  the colon of an in-line command is the separator if there is no other (`C52_colon_refuted`); comments behind dot
  directives are values (`C27_dot_comment_refuted`); an empty line drops the commands behind it
  (`C27_empty_line_refuted`); an inference rule line with a comment is none (`C52_rule_comment_refuted`).
* A dependent in two pairs of quotes replaces an existing target (`C29_overwritten_refuted`). .SYNC stops working at
  the first dependent that is no target (`C30_lost_refuted`).
* Inline files: lines beginning with `!` or `include`, texts without end, two files of one name, command lines that
  begin with `<<` (`C36_*_refuted`). `<<` that comes out of a macro in the command of an inference rule is no inline
  file.
* Rules whose extensions differ in case are ordered by the hash table (`C25_refuted`).

Command line and environment
* Several job counts, counts not in digits, flags spelling DEBUG and /DUMPGRAPH are not reproduced by MAKEFLAGS
  (`C32_*_refuted`). With `a=1 a=2`, `a` is 1 and `A` is 2 (`C31_macro_twice_refuted`). /B, /Q and /T are accepted and
  have no effect.
* Splitting and joining of arguments disagree on quotes and backslashes (`C33_*_refuted`).
* `set` on a line with `| < > &` is invisible to later commands (`C35_compound_refuted`). Two `cd` commands are both
  relative to jom's directory, and `cd /data` is `cd /d ta` (`C51_cd_refuted`); `cd` to a file succeeds.
* Numbers above 2^32-1 in a modifier count as 0 (`C13_large_number_refuted`).

Output
* With three jobs several commands write directly (`C34_two_direct_refuted`); what is unread when the end of a process
  is noticed is lost (`C34_unread_output_refuted`); messages about failures are printed apart from the output they
  belong to (`C34_error_message_refuted`).

Seen while reading and not proved: a semaphore of a job server that has ended is created anew with no tokens, so a
client runs one command at a time; when the acquisition of a token fails, `acquired` is never emitted and jom waits for
ever (jobclientacquirehelper.cpp); output is written with `fputs` and stops at a zero byte; the Ctrl-C handler ends jom without printing what is buffered.

## Tests of the theorems

`seeded/LOG.jsonl` has a line for each wrong program tried: a definition of the model is edited in a copy, everything
that depends on it is compiled again, and the proofs that fail are listed. Where nothing failed, either a theorem was
added or tightened (`tightened`), or the edit changes nothing that can be seen (`note`).

## Trusted base

* Coq 8.16.1's kernel, and `coqchk` for the compiled files. `vm_compute` is used in examples and refutations.
* The libraries std++ and coq-record-update are used for finite maps, tactics and record updates; they add no axioms.
* `Print Assumptions` reports "Closed under the global context" for every theorem and every example named below; no
  axiom of the standard library is used, and the files declare none.
* That the definitions match the C++ text they cite: by reading only. jom was not run.
* Qt and Windows behave as described in the comments of the definitions: QString functions, QHash (arbitrary order),
  queued signals are delivered in order, QSystemSemaphore counts, GetExitCodeProcess, CreateProcess.

Theorems, all closed under the global context:

* `CmdExecProps.v`: `C36_second_run_refuted`, `C37_printed`, `C37_no_process`, `C37_written_refuted`, `C37_incomplete_refuted`, `C36_created_partial`, `C36_cleanup`, `C36_same_name_refuted`, `C36_first_column_refuted`
* `CmdProps.v`: `C13_every_line_readable`, `C13_modifiers`, `C13_large_number_refuted`
* `DisplayProps.v`: `C57_shown`, `C57_once`, `C57_line`, `C57_time_refuted`
* `DumpProps.v`: `C39_lines_partial`, `C39_dot_partial`, `C39_printed`, `C39_readable`, `C39_main_partial`
* `EnvProps.v`: `C35_variables`, `C35_block`, `C35_set`, `C35_visible`, `C35_compound_refuted`, `C35_reference_refuted`, `C35_nameless_refuted`
* `ExecProps.v`: `C01_dependents_first`, `C01_dealt_with_means`, `C02_at_most_N`, `C03_at_most_once`, `C03_passes`, `C04_no_start_after_failure`, `C04_exit_code`, `C04_waits_partial`, `C04_refuted`, `C05_dependers_not_run`, `C05_unrelated_built`, `C05_exit_code`, `C06_exit_zero`
* `ExecProps2.v`: `C07_terminates`, `C07_never_stuck_partial`, `C07_refuted`, `C12_in_order`, `C12_only_started`, `C39_refuted`, `C40_all_requested_in_order`, `C40_exit_two`, `C40_states_forgotten`, `C41_missing_dependent`, `C42_crash_reasons`, `C42_endless_recursion`, `C42_exception_reasons`, `C42_unknown_name_crashes`
* `FileCacheProps.v`: `C38_current_partial`, `C38_decisions_partial`, `C38_second_output_refuted`, `C38_spelling_refuted`
* `FileMacrosProps.v`: `C24_expansion_partial`, `C24_dependents_partial`, `C24_dependents_forbidden`, `C24_single`, `C24_swallowed_refuted`, `C24_empty_letter_refuted`, `C24_empty_substitution_refuted`, `C24_escaped_refuted`, `C24_adjacent_refuted`, `C24_less_refuted`, `C24_letter_refuted`, `C24_crash_refuted`, `C24_no_dependents_refuted`, `C24_hang_refuted`
* `FrontProps.v`: `C11_reported`, `C11_always_reported`, `C11_not_reported`, `C11_terminates`, `C11_build_acyclic_partial`, `C11_refuted`, `C42_crash_reasons_program`
* `HandlesProps.v`: `C55_once`, `C55_separate`, `C55_inheritable`, `C55_exact_partial`, `C55_closed_partial`, `C55_leak_refuted`, `C55_inherited_refuted`
* `InferProps.v`: `C25_choice`, `C25_none`, `C25_suffixes`, `C25_candidates`, `C25_refuted`, `C26_partition`, `C26_one_batch`, `C26_order_refuted`
* `InlineProps.v`: `C36_names`, `C36_command`, `C36_plain`, `C36_directive_refuted`, `C36_include_refuted`, `C36_unterminated_refuted`, `C36_quoted_refuted`
* `InlineWholeProps.v`: `C36_text_partial`
* `IocpProps.v`: `C60_registered`, `C60_destroyed`, `C60_once`, `C60_settled_partial`, `C60_stale_refuted`, `C60_failed_start_refuted`
* `JobsProps.v`: `C08_covered_by_tokens`, `C08_normal_end`, `C08_tokens_conserved`, `C08_limit_partial`, `C08_restored_partial`, `C08_refuted`, `C08_lost_refuted`
* `LineReaderProps.v`: `C21_physical`, `C21_lines`, `C21_crlf`, `C21_unicode`, `C21_buffer`, `C21_crlf_refuted`
* `MacroProps.v`: `C14_terminates`, `C14_reported`, `C14_never_missed`, `C14_recursion`, `C15_expansion`, `C15_unambiguous`, `C15_errors`, `C15_malformed`, `C15_plain`, `C15_undefined`, `C15_caret_refuted`, `C16_command_line`, `C16_environment`, `C16_undef_refuted`, `C16_predefined_refuted`, `C16_env_name_refuted`, `C17_never_written_back`, `C17_refuted`, `C17_command_line_written`
* `MainProps.v`: `C46_at_most`, `C49_meaning`, `C49_usage`, `C31_told`, `C42_crash_program`, `C37_program`
* `MkLineProps.v`: `C27_comment`, `C27_command`, `C27_neither`, `C27_rule`, `C27_names`, `C27_caret_refuted`, `C27_colon_of_command_refuted`, `C27_one_letter_refuted`, `C27_dot_comment_refuted`, `C27_empty_line_refuted`
* `NestedProps.v`: `C64_kept`, `C64_joins`, `C64_keys`, `C64_nested`, `C64_macro_refuted`, `C64_block`, `C64_started`
* `OptsProps.v`: `C31_read`, `C31_unambiguous`, `C31_unknown_rejected`, `C31_jobs_rejected`, `C31_macro_values`, `C31_macro_twice_refuted`, `C32_settings_partial`, `C32_macro`, `C32_jobs_refuted`, `C32_number_refuted`, `C32_debug_refuted`, `C32_dump_refuted`, `C32_environment_unchanged`, `C32_variables`
* `OriginProps.v`: `C50_origin`, `C36_second_root_refuted`
* `OutputProps.v`: `C34_complete_in_order_partial`, `C34_time_order_partial`, `C34_not_mixed_partial`, `C34_one_piece_partial`, `C34_one_direct_writer_partial`, `C47_some_direct_writer`, `C34_two_direct_refuted`, `C34_unread_output_refuted`, `C34_error_message_refuted`
* `PPExprProps.v`: `C22_accepts`, `C22_result`, `C22_rejects`, `C22_syntax_error`, `C22_terminates`, `C23_refuted`, `C23_partial`, `C23_division`, `C23_harmless`
* `PPLexProps.v`: `C43_rules`, `C43_tokens`, `C43_total`, `C44_read_back`, `C44_value`, `C44_exist_refuted`, `C44_garbage_refuted`
* `PipesProps.v`: `C63_ends_partial`, `C63_taken_fails`, `C63_other_refuted`
* `PollProps.v`: `C61_reports`, `C61_noticed_partial`, `C61_calls`, `C61_left_refuted`, `C61_259_refuted`
* `PreprocProps.v`: `C18_select`, `C18_errors`, `C18_two_else_refuted`, `C19_refuted`, `C19_partial`, `C20_in_place`, `C20_cycle`, `C20_depth`, `C20_terminates_partial`, `C20_terminates_refuted`, `C21_join`
* `PrintProps.v`: `C58_rule_line`, `C58_rule_line_refuted`, `C58_listing_partial`, `C58_modifiers_refuted`
* `ProcEndProps.v`: `C48_noticed_partial`, `C48_still_active_refuted`
* `RulesProps.v`: `C30_order`, `C28_rules`, `C28_dependents`, `C28_mixed`, `C28_makefile`, `C29_lookup`, `C29_different`, `C29_overwritten_refuted`, `C30_groups`, `C30_sync_partial`, `C30_lost_refuted`, `C30_macro_refuted`, `C45_first`, `C45_default`, `C46_flag`, `C46_case_refuted`
* `SharedLiveProps.v`: `C62_goes_on_partial`, `C62_ends`, `C62_keep_going_partial`, `C62_refuted`, `C62_same_jobs_refuted`
* `ShellProps.v`: `C51_story`, `C51_order`, `C51_cd_refuted`
* `SplitCmdProps.v`: `C33_words_partial`, `C33_write_read_partial`, `C33_again_partial`, `C33_write_read_refuted`, `C33_words_refuted`
* `StartProps.v`: `C56_environment`, `C56_make`, `C56_server`, `C56_client`
* `TempProps.v`: `C54_removed_partial`, `C54_gone_partial`, `C54_own`, `C54_others`, `C54_in_use`, `C54_exit_refuted`, `C54_abort_refuted`, `C54_ctrl_c_refuted`
* `UpToDateProps.v`: `C09_decision`, `C09_no_dependents`, `C09_up_to_date_partial`, `C09_leaves_rest_alone`, `C09_in_builds`, `C09_refuted`, `C10_missing_dependent_partial`, `C10_in_builds_partial`, `C10_refuted`
* `WholeProps.v`: `C53_written`, `C53_order`, `C53_first`
* `WildProps.v`: `C59_plain`, `C59_relative`, `C59_absolute_partial`, `C59_beside_refuted`, `C59_other_directory_refuted`
* `WrittenFileProps.v`: `C52_file`, `C52_file_accepted`
* `WrittenProps.v`: `C52_read`, `C52_accepted`, `C52_rule_line`, `C52_no_rule_line`, `C52_directive`, `C52_directive_no_rule`, `C52_colon_refuted`, `C52_rule_comment_refuted`
