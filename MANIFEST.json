{
 "claims": [
  {
   "property": "C13",
   "status": "proved",
   "theorems": [
    "C13_every_line_readable",
    "C13_modifiers",
    "C13_large_number_refuted"
   ],
   "note": "for all command lines; numbers above 2^32-1 count as 0 (refuted corner)"
  },
  {
   "property": "C01",
   "status": "proved",
   "theorems": [
    "C01_dependents_first",
    "C01_dealt_with_means"
   ],
   "note": "for every history of events after any start of a build"
  },
  {
   "property": "C02",
   "status": "proved",
   "theorems": [
    "C02_at_most_N"
   ],
   "note": "also: no target twice at the same time"
  },
  {
   "property": "C03",
   "status": "proved",
   "theorems": [
    "C03_at_most_once",
    "C03_passes"
   ],
   "note": "per requested target"
  },
  {
   "property": "C04",
   "status": "partial",
   "theorems": [
    "C04_no_start_after_failure",
    "C04_exit_code",
    "C04_waits_partial",
    "C04_refuted"
   ],
   "note": "nothing new is started and the exit code is 2; the part about waiting is false: a command following the awaited one may still run when jom ends (C04_refuted), what holds instead is C04_waits_partial"
  },
  {
   "property": "C05",
   "status": "proved",
   "theorems": [
    "C05_dependers_not_run",
    "C05_unrelated_built",
    "C05_exit_code"
   ],
   "note": "for acyclic dependencies"
  },
  {
   "property": "C06",
   "status": "proved",
   "theorems": [
    "C06_exit_zero"
   ],
   "note": "for acyclic dependencies"
  },
  {
   "property": "C07",
   "status": "partial",
   "theorems": [
    "C07_terminates",
    "C07_never_stuck_partial",
    "C07_refuted"
   ],
   "note": "termination in full; no deadlock unless a process exits with code 259, which hangs jom (C07_refuted)"
  },
  {
   "property": "C12",
   "status": "proved",
   "theorems": [
    "C12_in_order",
    "C12_only_started"
   ],
   "note": "order, stop at the first failing command, end status"
  },
  {
   "property": "C39",
   "status": "partial",
   "theorems": [
    "C39_refuted",
    "C39_lines_partial",
    "C39_dot_partial",
    "C39_printed",
    "C39_readable",
    "C39_main_partial"
   ],
   "note": "Proved: what is printed is exactly the graph of the first requested target, as lines in depth-first order and as edges; the printing ends if and only if there is no cycle; the digraph can be read back. False: with /DUMPGRAPH the targets are built all the same (C39_refuted). Texts are not encoded."
  },
  {
   "property": "C40",
   "status": "proved",
   "theorems": [
    "C40_all_requested_in_order",
    "C40_exit_two",
    "C40_states_forgotten"
   ],
   "note": ""
  },
  {
   "property": "C41",
   "status": "proved",
   "theorems": [
    "C41_missing_dependent"
   ],
   "note": "for the first requested target; C40_exit_two covers the later ones"
  },
  {
   "property": "C42",
   "status": "proved",
   "theorems": [
    "C42_crash_reasons",
    "C42_endless_recursion",
    "C42_exception_reasons",
    "C42_unknown_name_crashes",
    "C42_crash_reasons_program",
    "C42_crash_program"
   ],
   "note": "complete list of reasons for abnormal ends of the scheduler"
  },
  {
   "property": "C08",
   "status": "partial",
   "theorems": [
    "C08_covered_by_tokens",
    "C08_normal_end",
    "C08_tokens_conserved",
    "C08_limit_partial",
    "C08_restored_partial",
    "C08_refuted",
    "C08_lost_refuted"
   ],
   "note": "holds as long as no process ends with exit code 2 while it waits for a token; then a token is invented and the limit is exceeded (C08_refuted); one that ends with exit code 2 while two of its commands run loses a token (C08_lost_refuted)"
  },
  {
   "property": "C09",
   "status": "partial",
   "theorems": [
    "C09_decision",
    "C09_no_dependents",
    "C09_up_to_date_partial",
    "C09_leaves_rest_alone",
    "C09_in_builds",
    "C09_refuted"
   ],
   "note": "C09_decision characterises the code for all time stamps; the wording of the property holds when no dependent is from the future and fails otherwise (C09_refuted)"
  },
  {
   "property": "C10",
   "status": "partial",
   "theorems": [
    "C10_missing_dependent_partial",
    "C10_in_builds_partial",
    "C10_refuted"
   ],
   "note": "false when the target's file is from the future; proved when it is older than the clock"
  },
  {
   "property": "C11",
   "status": "partial",
   "theorems": [
    "C11_reported",
    "C11_always_reported",
    "C11_not_reported",
    "C11_terminates",
    "C11_build_acyclic_partial",
    "C11_refuted"
   ],
   "note": "sound, complete and terminating for the names as the cycle check resolves them; a cycle through a name relative to the makefile's directory escapes it (C11_refuted)"
  },
  {
   "property": "C25",
   "status": "partial",
   "theorems": [
    "C25_choice",
    "C25_none",
    "C25_suffixes",
    "C25_candidates",
    "C25_refuted"
   ],
   "note": "proved, with 'defined last' among rules whose to-extension is spelled the same way; when the spellings differ in case the order is the hash table's (C25_refuted)"
  },
  {
   "property": "C26",
   "status": "partial",
   "theorems": [
    "C26_partition",
    "C26_one_batch",
    "C26_order_refuted"
   ],
   "note": "partition proved; the ordering part is false: only the first member of a batch carries the command (C26_order_refuted)"
  },
  {
   "property": "C14",
   "status": "proved",
   "theorems": [
    "C14_terminates",
    "C14_reported",
    "C14_never_missed",
    "C14_recursion"
   ],
   "note": "For all tables and strings. Of a recursion and a malformed reference the one met first is reported, so the equivalence is stated for strings that meet nothing malformed; C14_never_missed has no such condition."
  },
  {
   "property": "C15",
   "status": "partial",
   "theorems": [
    "C15_expansion",
    "C15_unambiguous",
    "C15_errors",
    "C15_malformed",
    "C15_plain",
    "C15_undefined",
    "C15_caret_refuted"
   ],
   "note": "Expansion is shown equal to an independent reading of the string. False for substitutions with a caret before the equals sign, which lose characters of the replacement (C15_caret_refuted); for those the reading follows the code."
  },
  {
   "property": "C16",
   "status": "partial",
   "theorems": [
    "C16_command_line",
    "C16_environment",
    "C16_undef_refuted",
    "C16_predefined_refuted",
    "C16_env_name_refuted"
   ],
   "note": "Holds for all histories without !UNDEF of the macro and without dollar signs in names of environment variables. False as stated: !UNDEF removes macros given on the command line, predefined macros replace those from the environment, and an environment variable with a reference in its name removes the protection."
  },
  {
   "property": "C17",
   "status": "partial",
   "theorems": [
    "C17_refuted",
    "C17_never_written_back",
    "C17_command_line_written"
   ],
   "note": "False: no definition in a makefile ever changes the environment. Macros from the command line do get into it."
  },
  {
   "property": "C22",
   "status": "proved",
   "theorems": [
    "C22_accepts",
    "C22_result",
    "C22_rejects",
    "C22_syntax_error",
    "C22_terminates"
   ],
   "note": "Over the LALR tables of ppexpr_grammar.cpp, copied number by number, and all sequences of tokens. For a text that is not a sentence an evaluation error (division by zero) in a part read before is reported instead of the syntax error."
  },
  {
   "property": "C23",
   "status": "partial",
   "theorems": [
    "C23_refuted",
    "C23_partial",
    "C23_division",
    "C23_harmless"
   ],
   "note": "False as stated: remainder by zero, INT_MIN / -1, shifts by more than 31 bits and overflow are undefined in C++ and not reported. Proved: division by zero is reported, and without these operations there is always a value or an error."
  },
  {
   "property": "C21",
   "status": "partial",
   "theorems": [
    "C21_physical",
    "C21_lines",
    "C21_crlf",
    "C21_unicode",
    "C21_buffer",
    "C21_join",
    "C21_crlf_refuted"
   ],
   "note": "Physical lines, comments, line ends, independence of the buffer size and the joining of continued lines are proved for all texts. False where a carriage return is the last byte fitting into the line buffer (C21_crlf_refuted)."
  },
  {
   "property": "C43",
   "status": "proved",
   "theorems": [
    "C43_rules",
    "C43_tokens",
    "C43_total"
   ],
   "note": "Over the tables of ppexpr-lex.inc, copied number by number, for all texts of non-zero bytes; by derivatives of the regular expressions of ppexpr.l that run along with the automaton."
  },
  {
   "property": "C44",
   "status": "partial",
   "theorems": [
    "C44_read_back",
    "C44_value",
    "C44_exist_refuted",
    "C44_garbage_refuted"
   ],
   "note": "Proved for everything but EXIST. False for two EXIST tests on a line (one greedy match), and unknown characters and unfinished strings are accepted; the latter also change how the next expression is read."
  },
  {
   "property": "C18",
   "status": "proved",
   "theorems": [
    "C18_select",
    "C18_errors",
    "C18_two_else_refuted"
   ],
   "note": "For all nestings, branch counts and condition values, including files included inside of branches. The lines of branches that are not selected must expand without a macro error (see C19), and no dollar sign may be left in their directives. Beyond the statement: a second !ELSE in a block is accepted (C18_two_else_refuted)."
  },
  {
   "property": "C19",
   "status": "partial",
   "theorems": [
    "C19_refuted",
    "C19_partial"
   ],
   "note": "False as stated: macros are expanded in skipped lines, so a malformed or recursive invocation there raises an error. Proved: nothing else can happen."
  },
  {
   "property": "C20",
   "status": "partial",
   "theorems": [
    "C20_in_place",
    "C20_cycle",
    "C18_errors",
    "C20_depth",
    "C20_terminates_partial",
    "C20_terminates_refuted"
   ],
   "note": "In place, cycles reported and the depth bound are proved. Termination is false: a file ending in an !INCLUDE of itself that is continued with a backslash is read for ever. Proved if no continuation runs over the end of its file or into a directive."
  },
  {
   "property": "C31",
   "status": "proved",
   "theorems": [
    "C31_read",
    "C31_unambiguous",
    "C31_unknown_rejected",
    "C31_jobs_rejected",
    "C31_macro_values",
    "C31_told",
    "C31_macro_twice_refuted"
   ],
   "note": "readCommandLineArguments accepts exactly the command lines of an independent grammar and yields their settings, makefile, targets (without repetitions) and macros; the grammar is unambiguous. Corner shown by C31_macro_twice_refuted: with a=1 a=2 the name a keeps the first value while A gets the second. Not modelled: arguments that are empty strings index past the end of the string in the code; here they are targets."
  },
  {
   "property": "C32",
   "status": "partial",
   "theorems": [
    "C32_settings_partial",
    "C32_macro",
    "C32_jobs_refuted",
    "C32_number_refuted",
    "C32_debug_refuted",
    "C32_dump_refuted",
    "C32_environment_unchanged",
    "C32_variables"
   ],
   "note": "Holds for all command lines with at most one job count written in digits, no graph dump, and flags that do not spell DEBUG; false without each of these conditions (witnesses proved). /DEBUG, /VERSION, /X and /F are not handed on. C32_environment_unchanged: reading the command line does not put MAKEFLAGS into the environment. C32_variables: the variables JOMFLAGS and MAKEFLAGS are read first, then the words of the command line."
  },
  {
   "property": "C33",
   "status": "partial",
   "theorems": [
    "C33_words_partial",
    "C33_write_read_partial",
    "C33_again_partial",
    "C33_write_read_refuted",
    "C33_words_refuted"
   ],
   "note": "Splitting a command line of a command file: proved for texts without the corner cases shown false by the two refutations."
  },
  {
   "property": "C35",
   "status": "partial",
   "theorems": [
    "C35_variables",
    "C35_block",
    "C35_set",
    "C35_visible",
    "C35_compound_refuted",
    "C35_reference_refuted",
    "C35_nameless_refuted"
   ],
   "note": "Proved: names are case-insensitive, the block has each variable once and reads back unambiguously, every process of every executor in every order of events sees the values of the last set commands before it. Missing for the full statement: set commands on lines with | < > & are run by a shell and stay invisible (refuted), values are not expanded by a shell, nameless variables."
  },
  {
   "property": "C37",
   "status": "partial",
   "theorems": [
    "C37_printed",
    "C37_no_process",
    "C37_program",
    "C37_written_refuted",
    "C37_incomplete_refuted"
   ],
   "note": "No process is started in any dry run and every command of a target handed to an executor is printed in order. False as stated: inline files are written (C37_written_refuted), and a target that only becomes out of date by rebuilding its dependents is not printed (C37_incomplete_refuted)."
  },
  {
   "property": "C36",
   "status": "partial",
   "theorems": [
    "C36_names",
    "C36_command",
    "C36_plain",
    "C36_created_partial",
    "C36_cleanup",
    "C36_text_partial",
    "C36_directive_refuted",
    "C36_include_refuted",
    "C36_unterminated_refuted",
    "C36_quoted_refuted",
    "C36_same_name_refuted",
    "C36_first_column_refuted",
    "C36_second_run_refuted",
    "C36_second_root_refuted"
   ],
   "note": "Parser: names in the command, content of the texts behind it (lines that are no directives, read by the preprocessor, line ends LF in the 8-bit text), KEEP and UNICODE. Executor: creation before the first command, names on the command line, clean-up. False for lines that begin with ! or include, for a text without end, for two files of one name and for a command line that begins with <<, and for a target that is run a second time: its line keeps the name of the removed file. C36_text_partial: parser and executor together, for the texts of the grammar of C52 with conditional blocks and included files. Missing: the encoding of the file on disk (toLocal8Bit)."
  },
  {
   "property": "C24",
   "status": "partial",
   "theorems": [
    "C24_expansion_partial",
    "C24_dependents_partial",
    "C24_dependents_forbidden",
    "C24_single",
    "C24_swallowed_refuted",
    "C24_empty_letter_refuted",
    "C24_empty_substitution_refuted",
    "C24_escaped_refuted",
    "C24_adjacent_refuted",
    "C24_less_refuted",
    "C24_letter_refuted",
    "C24_crash_refuted",
    "C24_no_dependents_refuted",
    "C24_hang_refuted"
   ],
   "note": "Proved for all commands, targets, dependent lists and file times within the conditions listed in FileMacrosSpec.fine. False without each of them: characters are swallowed or left over, the expansion of a target name with a file name macro never ends, and a command with an exclamation mark and no dependents leads to undefined behaviour."
  },
  {
   "property": "C27",
   "status": "partial",
   "theorems": [
    "C27_comment",
    "C27_command",
    "C27_neither",
    "C27_rule",
    "C27_names",
    "C27_caret_refuted",
    "C27_colon_of_command_refuted",
    "C27_one_letter_refuted",
    "C27_dot_comment_refuted",
    "C27_empty_line_refuted"
   ],
   "note": "Comment, in-line command, separator and names are characterised for all lines. False: an escaped # keeps its caret if no comment follows; without a separator before the semicolon a colon of the command is taken; a target of one letter directly before the colon is a drive letter; comments behind dot directives belong to their values; an empty line before the commands drops them."
  },
  {
   "property": "C28",
   "status": "proved",
   "theorems": [
    "C28_rules",
    "C28_dependents",
    "C28_mixed",
    "C28_makefile"
   ],
   "note": "For all sequences of rules, and every makefile read is one. Dependents with file name macros are related to what is written by the expansion of C24."
  },
  {
   "property": "C29",
   "status": "partial",
   "theorems": [
    "C29_lookup",
    "C29_different",
    "C29_overwritten_refuted"
   ],
   "note": "Proved for every makefile as read and every name looked up (letter case of Latin-1). False afterwards: a dependent in two pairs of double quotes creates a second target over an existing one."
  },
  {
   "property": "C30",
   "status": "partial",
   "theorems": [
    "C30_groups",
    "C30_sync_partial",
    "C30_order",
    "C30_lost_refuted",
    "C30_macro_refuted"
   ],
   "note": "Proved for all rules and all orders of the hash table if every dependent is a target. False otherwise: a dependent that is no target, in any rule, ends the loop. File name macros are not expanded in what is added."
  },
  {
   "property": "C45",
   "status": "proved",
   "theorems": [
    "C45_first",
    "C45_default"
   ],
   "note": ""
  },
  {
   "property": "C46",
   "status": "proved",
   "theorems": [
    "C46_flag",
    "C46_at_most",
    "C46_case_refuted"
   ],
   "note": "The flag is set by such a rule and by nothing else; with it at most one job is active at any time in any run of the whole program. The name is not recognised in other letter case."
  },
  {
   "property": "C38",
   "status": "partial",
   "theorems": [
    "C38_current_partial",
    "C38_decisions_partial",
    "C38_second_output_refuted",
    "C38_spelling_refuted"
   ],
   "note": "For all builds and interleavings in which the commands of a target change no file but the target's own, spelled as in the rule: what the cache yields is the present time of every file that is not being made, and the observation an up-to-date decision is based on shows the present times of the target's file and of all files it lists. Refuted without that restriction: a second output file of a command, or a dependent spelled in another case, keeps its old time in the cache and a target is wrongly taken for up to date. Not covered: the copy of a time in m_timeStamp of a description block."
  },
  {
   "property": "C34",
   "status": "partial",
   "theorems": [
    "C34_complete_in_order_partial",
    "C34_time_order_partial",
    "C34_not_mixed_partial",
    "C34_one_piece_partial",
    "C34_one_direct_writer_partial",
    "C34_two_direct_refuted",
    "C34_unread_output_refuted",
    "C34_error_message_refuted"
   ],
   "note": "For all executions of the two threads: what jom has read or written itself is printed exactly once, per channel in order, by time across channels; one printing is not interrupted by another; what a process writes while buffered comes out in one printing; at most one direct writer with one or two executors. False: with three executors several write directly (no break in the loop of onChildFinished); bytes not yet read when the end of the process is noticed are lost; the message about a failed command stays in the buffer and is printed apart from the command's output."
  },
  {
   "property": "C47",
   "status": "proved",
   "theorems": [
    "C47_some_direct_writer"
   ],
   "note": ""
  },
  {
   "property": "C48",
   "status": "partial",
   "theorems": [
    "C48_noticed_partial",
    "C48_still_active_refuted"
   ],
   "note": "For all exit codes but 259 (STILL_ACTIVE), which is asked for again for ever."
  },
  {
   "property": "C49",
   "status": "proved",
   "theorems": [
    "C49_meaning",
    "C49_usage"
   ],
   "note": "For every run of the whole program that ends with an exit code; the reason for each code. Ends by a crash or by the console handler have no code of jom."
  },
  {
   "property": "C50",
   "status": "proved",
   "theorems": [
    "C50_origin"
   ],
   "note": "For every run of the whole program, with the tables of the parser; how the parser fills them is C27, C28, C29."
  },
  {
   "property": "C51",
   "status": "proved",
   "theorems": [
    "C51_story",
    "C51_order",
    "C51_cd_refuted"
   ],
   "note": "For every list of commands, directory, environment and exit code, until the target ends. False against what a shell does (C51_cd_refuted): two cd commands are both relative to the directory of jom, and cd /data is taken for cd /d ta."
  },
  {
   "property": "C52",
   "status": "proved",
   "theorems": [
    "C52_read",
    "C52_accepted",
    "C52_rule_line",
    "C52_no_rule_line",
    "C52_directive",
    "C52_directive_no_rule",
    "C52_file",
    "C52_file_accepted",
    "C52_colon_refuted",
    "C52_rule_comment_refuted"
   ],
   "note": "For every source of lines and every macro table; C52_file and C52_file_accepted for files, with directives, macro definitions and included files in front of the parser. The grammar has inline files behind the commands of description blocks; it has no wildcards (C27). Outside of the grammar: a colon of the in-line command is taken for the separator if there is none before it (C52_colon_refuted), an inference rule with a comment is none (C52_rule_comment_refuted)."
  },
  {
   "property": "C53",
   "status": "proved",
   "theorems": [
    "C53_written",
    "C53_order",
    "C53_first"
   ],
   "note": "The bounds on recursion of the model have to be large enough for the makefile (f0). C53_order and C53_first are for dependents without double quotes and file name macros; with quotes they are false (C29_overwritten_refuted). Success of the first target is for graphs without cycles through inferred dependents."
  },
  {
   "property": "C54",
   "status": "partial",
   "theorems": [
    "C54_removed_partial",
    "C54_gone_partial",
    "C54_own",
    "C54_others",
    "C54_in_use",
    "C54_exit_refuted",
    "C54_abort_refuted",
    "C54_ctrl_c_refuted"
   ],
   "note": "The statement is false in three corners: when jom ends by exit(2), because a later requested target has a dependent that does not exist, the executors are not destroyed and their files stay (C54_exit_refuted, from the makefile on); the same when the shell cannot be started (qFatal, C54_abort_refuted); and the handler of Ctrl-C runs in a thread of its own, so that a file that is written but not yet in the list stays (C54_ctrl_c_refuted). Otherwise proved for all runs: C54_removed_partial and C54_gone_partial for return, exception and Ctrl-C between two events."
  },
  {
   "property": "C55",
   "status": "partial",
   "theorems": [
    "C55_once",
    "C55_separate",
    "C55_inheritable",
    "C55_exact_partial",
    "C55_closed_partial",
    "C55_leak_refuted",
    "C55_inherited_refuted"
   ],
   "note": "The last two sentences of the statement are false after a start that failed, as with every command that is no program and is then given to the shell: the pipes of the first start are overwritten and never closed, six handles for each such command (C55_leak_refuted, for every number of commands), and later children get the ends of the lost pipes (C55_inherited_refuted). For runs without such starts they are proved. Pipe names that are in use: see C63; Windows is taken not to make a handle twice."
  },
  {
   "property": "C56",
   "status": "proved",
   "theorems": [
    "C56_environment",
    "C56_make",
    "C56_server",
    "C56_client"
   ],
   "note": "Paths are taken not to begin with white space (the first character is not looked at) and not to contain a dollar sign. The number passed on is the variable _JOMJOBCOUNT_ after the makefile has been read."
  },
  {
   "property": "C57",
   "status": "partial",
   "theorems": [
    "C57_shown",
    "C57_once",
    "C57_line",
    "C57_time_refuted"
   ],
   "note": "The last sentence is false: the time stamp of an existing file that is out of date is cleared by the check before the line is printed, so that lines with an asterisk show the first of January 1601 (C57_time_refuted). Everything else is proved for all executions that are not stopped by an error or a crash: C57_shown (order, marks, time of up-to-date targets), C57_once, C57_line."
  },
  {
   "property": "C58",
   "status": "partial",
   "theorems": [
    "C58_rule_line",
    "C58_rule_line_refuted",
    "C58_listing_partial",
    "C58_modifiers_refuted"
   ],
   "note": "False as stated: the modifiers of commands and the contents of inline files are not printed, so that two makefiles that behave differently have the same listing (C58_modifiers_refuted), and a search path that ends with two separators is another one when the printed line is read (C58_rule_line_refuted). Proved for all tables, rules and targets whose texts have no ends of lines (and names of macros no blanks, dependents no tabs): the listing determines the rest, in whatever order the hash tables are iterated (C58_listing_partial); the first line of a rule is read as the same rule (C58_rule_line)."
  },
  {
   "property": "C59",
   "status": "partial",
   "theorems": [
    "C59_plain",
    "C59_relative",
    "C59_absolute_partial",
    "C59_beside_refuted",
    "C59_other_directory_refuted"
   ],
   "note": "False as stated: files in a directory whose name begins like the one of the makefile get wrong names (C59_beside_refuted), and the names are relative to the directory of the makefile but used in the current one (C59_other_directory_refuted). Proved for all file systems: which dependents are patterns (C59_plain and the others), relative patterns (C59_relative), patterns with a full name unless they are beside the directory of the makefile (C59_absolute_partial)."
  },
  {
   "property": "C60",
   "status": "partial",
   "theorems": [
    "C60_registered",
    "C60_destroyed",
    "C60_once",
    "C60_settled_partial",
    "C60_stale_refuted",
    "C60_failed_start_refuted"
   ],
   "note": "False as stated: results left over from a process are handed to the next process of the executor (C60_stale_refuted), and a failed start leaves its read behind (C60_failed_start_refuted). Proved for all executions: only registered channels are notified, none after its destruction, each read is dealt with at most once. For executions without failed starts in which nothing is left over when a channel is registered: right process, one read at a time, a prefix of the output. Not modelled: bytes left in a closed pipe, the end of the thread beyond that it may come at any time."
  },
  {
   "property": "C61",
   "status": "partial",
   "theorems": [
    "C61_reports",
    "C61_noticed_partial",
    "C61_calls",
    "C61_left_refuted",
    "C61_259_refuted"
   ],
   "note": "False as stated: calls are left over that ask for an exit code for ever (C61_left_refuted), and a process that ends with 259 is never reported (C61_259_refuted). Proved for all interleavings: what is reported is the process that runs, after its end, once, with its own exit code, whichever process a call was meant for; any call after the end reports it unless the code is 259 (missing in C61_noticed_partial); the number of calls left is the number asked for minus the reports."
  },
  {
   "property": "C62",
   "status": "partial",
   "theorems": [
    "C62_goes_on_partial",
    "C62_ends",
    "C62_keep_going_partial",
    "C62_refuted",
    "C62_same_jobs_refuted"
   ],
   "note": "False as stated: a process that gives up after a failure while it waits for a token takes one and keeps it while a jom process among its commands waits for it; when n processes have done so nothing can happen any more (C62_refuted, C62_same_jobs_refuted). Proved for all trees of processes, numbers and interleavings when fewer than n processes have given up and still wait, those that have ended hold no tokens and left no commands, and all commands are watched (C62_goes_on_partial), and they do not go on for ever without starting more of them (C62_ends); with /K it is enough that processes ended with exit codes 0 or 1 (C62_keep_going_partial)."
  },
  {
   "property": "C63",
   "status": "partial",
   "theorems": [
    "C63_ends_partial",
    "C63_taken_fails",
    "C63_other_refuted"
   ],
   "note": "False as stated: after 1000 names in use jom goes on without a pipe of its own and opens the last name, the pipe of another program (C63_other_refuted). Proved when one of the names tried is not in use. Other programs are taken to have pipes with one instance."
  },
  {
   "property": "C64",
   "status": "partial",
   "theorems": [
    "C64_kept",
    "C64_joins",
    "C64_keys",
    "C64_nested",
    "C64_block",
    "C64_started",
    "C64_macro_refuted"
   ],
   "note": "False as stated: a macro on the command line takes the place of the key (C64_macro_refuted). Proved for all makefiles and for command lines whose macros leave the two variables alone: the variables reach the commands unchanged (C64_kept), the server is used unless another number of jobs is given (C64_joins), from one jom to the next (C64_nested), also through the environment block of the process (C64_block, C64_started); keys differ when process ids or random numbers differ (C64_keys). In C64_started the other jom is a command whose environment no SET has changed; for SET see C35_visible."
  }
 ]
}