# Formal model of task-maker-rust in Rocq (Coq 8.16.1)

This file was written before the proofs and is kept current. Section 1 states the trusted
base, section 2 the modelling conventions, section 3 the plan for every property.

## 1. Trusted base

* Coq 8.16.1's kernel, and `vm_compute` where used in proofs of closed goals.
* std++ (`gmap`, `gset`, list lemmas) and the standard library. std++ adds no axiom. What
  `Print Assumptions` prints under every property theorem is the authoritative list; see section 5.
* The reading of the Rust code: nothing is executed, the only tie is the citation on each definition.
* Not modelled (and trusted): the OS, the sandbox (tabox), TCP/local channels beyond FIFO order,
  serde/bincode beyond the byte layout written down in `CodecModel.v`, serde_yaml and serde_json, blake3 (an abstract
  function/key, collision freedom is a visible hypothesis when needed), clap, colors of the terminal, what LaTeX does.
  Crates that the properties need are written down from their documentation or source, and the model says so: the pest
  grammars of the two files, wildcards, the regular expressions that are used, `shell_words::split`, `Url::parse`.
  Section 4 says for each model what is left out.
* Scores (C39-C41, C50, C61) are real IEEE 754 binary64 numbers: the pure definitions of the standard library's
  `SpecFloat`. Flocq is used in proofs only, to relate them to real numbers; it adds no axiom, the real numbers of the
  standard library bring the four axioms listed in section 5. Durations (scheduler, cache, worker) are exact integers.
  u64/u32 arithmetic is unbounded unless the property is about wrap around.

## 2. Conventions

* A `HashMap`/`HashSet` is a std++ `gmap`/`gset`, or an association list *in iteration order* when the
  order of iteration is observable. Theorems quantify over all orders: either because the list is
  arbitrary or through an oracle `ord : nat -> list A -> list A` returning any permutation at every
  use (the `nat` is a use counter, so two iterations over the same map may differ).
* `panic!`, `unwrap`, indexing of a missing key, failed `assert!` and `bail!` are explicit error values.
* `&mut self` methods become functions returning the new state; messages sent on channels are appended
  to an output log.
* Recursive Rust functions without structural recursion take fuel; running out of fuel is an
  explicit error, which the theorems prove unreachable with the stated fuel.
* `*_partial` theorems prove part of a property; `*_refuted` theorems exhibit a concrete run of the
  model violating the full statement (a finding about the code).
* Files: `XxxModel.v` definitions only, `XxxProofs.v` lemmas, `XxxSpec.v` the vocabulary of the
  statements when the model's own functions are not enough, `XxxProps.v` theorems + `Print Assumptions`
  + examples.

## 3. Plan per property

| Property | Model | Proof idea |
|---|---|---|
| C01, C02 | `CheckDag*`: `check_dag` line by line; counters as lists; visit loop with fuel | soundness: the order in which the visit empties the counters is a topological order; completeness: minimal unvisited group contradiction; counters never negative by a counting invariant |
| C03-C15 | `Sched*`: all handlers of scheduler.rs, with a cache oracle and order oracle | a global invariant of the state preserved by each internal function, then induction over message lists |
| C16-C21 | `Cache*`: key, entry, compatibility, insert/get, `Execution::status` | case analysis + order reasoning; sorting canonical forms for the key |
| C22-C24 | `StoreIndex*`: index operations, flush loop over a max-heap | invariants, loop induction; LRU refuted by a concrete index |
| C25-C28 | `Store*`: small-step interleaving model of store()/get()/drop by many threads, crash = truncate the run and drop memory | inductive invariant over the step relation |
| C29 | `Codec*`: byte-level model of the saved file | round-trip by induction; prefix-freeness for truncation |
| C30 | `Proto*` | induction on the content |
| C31-C33 | `Client*`: the evaluate loop as a state machine over server messages | invariants over message lists |
| C34-C37 | `Worker*`: capture_stream, job set-up, group manager, stop | induction, permutation invariants |
| C38, C57-C60 | `Server*`: the threads of the executor and of the worker manager, two writers on a channel | refuted by an interleaving; partial: true if the writer of statuses is silent after Done |
| C39-C41, C50, C61 | `Float*`, `Score*`: ScoreManager, aggregators, ScoreSender, callbacks of batch and communication tasks, over binary64 | invariant over the arrivals; monotonicity of rounding and rounding error bounds; Sterbenz for C50 |
| C42 | `Task*`: the closure loop | the loop computes the least fixpoint = reachability; measure for termination |
| C43 | `Format*`: the grammar and the interpreter of gen/GEN, from characters to subtasks | parser proved equivalent to a relational grammar; invariant over the lines that describes the state by what is before each line |
| C44, C45, C64 | `Cases*`: the same for gen/cases.gen; static_inputs.rs | as C43; constraints as chains of relations over 64 bit integers |
| C46 | `Task*`: file system effects of load and clean | each step changes only the file it names |
| C47-C49, C52, C62, C63 | `Checks*`: outcomes and checks, the rules in a source, the spans, writing the comments | finite case analysis; the regular expressions as leftmost/last occurrence functions, proved to agree with positions of marks and rules; induction over lines |
| C54, C65, C66 | `Sandbox*` | Flocq for the f64 sums and the rounding up; induction over directories and files |
| C67 | `Build*` | Hoare triples over the state of the construction: an invariant (identifiers are used once, dependencies come before, callbacks are known), a growth relation that carries the specification of each finished part, induction over testcases, subtasks, solutions, processes; frames for the messages, the written files and the prepared sources |
| C68, C69 | `Lang*` | invariant of the worklist (pairs found, files seen), a measure for termination (names not yet used), an inductive specification of the files needed; the regular expressions as leftmost/last occurrence functions with equations on texts; case analysis over the languages |
| C70 | `Terry*` | the triples and the growth relation of C67 over the same builder; induction over the solutions |
| C71 | `TerryUi*` | projection of a list of messages on one solution; induction over the legal histories of a chain of four executions; integer division against the real value for the floor |
| C72 | `Find*` | a list of files is a filter of the sorted entries of a directory (for paths without pattern characters); uniqueness of a sorted permutation for the order of listing; decomposition of a name at its last dot for `clean` |
| C73 | `BadCase*` | decimal numbers parse back to themselves; the last occurrence of a mark in a text built around it; each written file and each execution of the DAG of C67 is found again from its path or its description; counting of the tagged executions |
| C74 | `BadLoop*` | a step relation for the four threads; an invariant that ties the history of the messages (applied, queued, not forwarded) to the phase of the main thread, the batch the shared state knows, what the UI shows and what was found; a stronger one for the runs where the UI is never late |
| C75 | `Sanity*` | the reported lists are characterized by what the task declares; the groups and the order by the relation "no solution shows that a can be solved without b"; the sum of integer scores is exact (Flocq) |
| C76 | `Outputs*` | the state of the hashers and of the outputs as a function of the streams of each callback (induction on the events), then the verdict of each subtask |
| C77 | `Life*` | transition system of the threads and the channels of a run; a lexicographic measure of twelve numbers for "nothing loops"; inductive invariants of the executor, of the client, of the UI for "a halted run has ended"; the runs that never end by invariants too |
| C78 | `Hooks*` | the list of the registered checks filtered by the skip list, for any permutation of it; the loop over the hooks with abstract effects (induction on the list) |
| C79 | `Att*` | the listing of att/ from `FindModel`, the regex of the numbers as a reversed scan proved equal to a grammar, the two hash maps as `gmap` with an arbitrary order of iteration |
| C80 | `AttModel`, `AttProofs3`, `AttProps2` | each hook as a function of the disk, its diagnostics characterised by "iff" with the specification in `AttSpec` |
| C81 | `BookletModel`, `BookletProofs`, `BookletProps` | the functions that make the booklets, over the trees of `FindModel`; induction on the lists, with any permutation for the hash map |
| C82 | `BookletModel`, `BookletProofs2`, `BookletProps2` | the templates as functions to texts; the regex as a scan, proved equal to a rule on each line by induction on the lines |
| C83 | `BookletModel2`, `BookletProps3` | the inputs of the executions as lists of (path, origin), the hash map as "the last one wins"; exact characterisation by the inductive `wanted` |
| C84 | `LatexModel`, `LatexProps` | the regex as an automaton on lines; induction on the lines for soundness and completeness |
| C85 | `Regex*`, `Stmt*` | a backtracking matcher for the regular expressions as the ordered list of its results; expressions `.*body.*` proved to work line by line and to choose the last occurrence; then induction on the two lists |
| C86 | `StmtModel`, `StmtProps2` | each hook as a function of what it sees of the disk, its diagnostics characterised by "iff" |
| C87 | `GenBackModel`, `GenBackProps` | the writer composed with the parsers of FormatModel; an invariant of the states of the cases.gen parser, then induction over the entries; readability by "iff", corners refuted by examples |
| C88 | `ConnModel`, `ConnSpec`, `ConnProps` | the loop of the listeners as a function of the list of connections, induction over it with renumbering; urls: one lemma per piece of the parser, facts about single characters by checking the 256 of them |
| C89 | `ReportModel`, `ReportSpec`, `ReportProps` | the report as rows and cells computed from the state of C55; an invariant of the reachable states (which maps have which keys) gives the absence of panics; permutations for each testcase once; the table of the checks against a direct reading of the checks of a solution |
| C90 | `FuzzModel`, `FuzzSpec`, `FuzzProps` | a map of paths to nodes as file system; the corpus and the directories of the failures by induction over the list of outputs and artifacts, against fuzzer.cpp as a function from the bytes to testcase and output |
| C91 | `LocateModel`, `LocateSpec`, `LocateProps` | the loop over the parents by induction on the number of levels that have no task; what the directories contain is a parameter |
| C92 | `SpanModel`, `SpanSpec`, `SpanProps` | the loop over the lines by induction, with the lines already passed as the invariant; characters by a reading of UTF-8 from the left; the false clause on the carets refuted by a line with an accent |
| C93 | `DiagModel`, `DiagSpec`, `DiagProps` | the printed text is a concatenation of whole rows without newlines, so its lines are those rows; lines of a text by an inductive relation |
| C94 | `ExeModel`, `ExeSpec`, `ExeProps` | the loop over the patterns by induction, using that they are sorted by length; the table compared with the headers of the specification |
| C95 | `JunkModel`, `JunkSpec`, `JunkProps` | the plan by cases on the first testcase with both files; the callbacks as a function of the result, the run by induction on the order in which the executions end |
| C96 | `SettingsModel`, `SettingsSpec`, `SettingsProofs`, `SettingsProofs2`, `SettingsProps` | each field by the lemma on fields (silent, or exactly one value); the whole struct by composing them; the round trip by evaluation of the lookup on the written document |
| C97 | `DotModel`, `DotSpec`, `DotProofs`, `DotProofs2`, `DotProps` | the text is rendered byte by byte as copy_dag.rs does and read back by an independent reader of DOT (tokens, statements, labels of boxes and records), by lemmas on the reader run on each line; the graph that is read is compared with the DAG |
| C98 | `InfoModel`, `InfoSpec`, `InfoProofs`, `InfoProps` | the sort is the only sorted permutation; the copies by induction on the list of the files, the run by induction on the tasks; the sum of integer scores by the lemma of C75 |
| C99 | `OptModel`, `OptSpec`, `OptProofs`, `OptProps` | the command is a sequence of operations over an arbitrary oracle; the monadic program is shown equal to performing a plan, for which the result is known by induction; every event satisfies an invariant |
| C100 | `CompModel`, `CompSpec`, `CompProofs`, `CompProps` | invariant of the uses (compilations in bijection with the sources), then induction on the notifications with the callbacks that are still bound; the interface that goes away by a simulation that is closed under composition |
| C101 | `StatusSpec`, `StatusProofs`, `StatusProps` | every handler is the update of the message followed by a walk of small steps, so the maps of workers and clients are folds over the trace; the answer by the invariants of C04 |
| C102 | `RunnerModel`, `RunnerSpec`, `RunnerProps` | case analysis over what the operating system answers and how the child ends, under the only hypothesis that a child that ends well has run its program; the kill by the times of the five reads of the pid |
| C103 | `ResetModel`, `ResetSpec`, `ResetProofs`, `ResetProps` | induction on the tree of the storage (own induction principle) for both passes; the removal as a predicate on the directories of the tree, by the permissions of those above |
| C104 | `CursesModel`, `CursesSpec`, `CursesProofs`, `CursesProps` | insertion sort by name; the rotation as arithmetic modulo the number of workers; the layout as linear arithmetic over what the panels need |
| C105 | `EnvModel`, `EnvSpec`, `EnvProofs`, `EnvProps` | the words by induction on the text with the state of the reader; the configuration by cases on the variables, against the list of those that may give it |
| C106 | `ShellWordsModel`, `ShellWordsSpec`, `ShellWordsProofs`, `ShellWordsProps` | a grammar of the written words; both inclusions by induction (on the grammar, and on the text with what each state of the reader means); then C45 and C87 with this reader |
| C107 | AttDagModel, AttDagSpec, AttDagProofs, AttDagProps | Invariant of the DAG under construction (that of C67) extended to the hook; induction on the samples |
| C108 | PrintUiModel, PrintUiSpec, PrintUiProofs, PrintUiRead, PrintUiProps | Unique reading of a line from the left (escaped paths, numbers, literals); case analysis on all pairs of messages; induction on the history |
| C01, C22, C23, C36, C39, C67, C68, C81-C83 (accessors) | `PinProps`, `PinProps2`, `PinProps3` | the meaning of the accessors and setters of the model that the specifications mention, each said on its own, so that a wrong accessor breaks a theorem |
| C51, C53, C55 | `Misc*`, `UiState*` | induction over chunks / lines / messages |

Properties that need the runtime (thread scheduling, timeouts, disk) are modelled through their
logical part: interleavings become a step relation, a crash becomes "the run stops here".

## 4. What is modelled and what is not

Each `XxxModel.v` starts with its simplifications and cites the lines of every function. In short:

| Model | Code | Left out |
|---|---|---|
| `DagModel` | task-maker-dag: dag.rs, execution.rs, execution_group.rs, file.rs (data types, `Execution::status`, dependencies) | descriptions, builder methods without logic, `ExecutionDAGWatchSet` closures (see `ClientModel`) |
| `CheckDagModel` | exec/check_dag.rs, whole | texts of the errors |
| `SchedModel` | exec/scheduler.rs, all handlers | names, times of the status message; sends do not fail |
| `CacheModel`, `CodecModel`, `RestartModel` | cache: key.rs, entry.rs, lib.rs, storage.rs; store/index.rs save and load | the hash function of HashMap; power failures |
| `StoreIndexModel`, `StoreModel` | store: index.rs, lib.rs | file locks between processes, integrity checks (disabled in the code) |
| `ProtoModel` | exec/proto.rs send/receive of files, store/read_file_iterator.rs | ductile (channels are FIFO) |
| `ClientModel` | exec/client.rs | the status poller |
| `WorkerModel` | exec/worker.rs | the sandboxes themselves (any result, any order) |
| `ServerModel` | exec/executor.rs, exec/worker_manager.rs | status replies' content; thread start-up |
| `FloatModel`, `ScoreModel` | format/ioi: mod.rs (ScoreManager), dag/mod.rs (aggregators), dag/task_type/{batch,communication}.rs (callbacks), dag/checker.rs (callbacks), testcase_score_status.rs | parsing of the printed number (a parameter), NaN payloads |
| `ChecksModel` | format/solution.rs, diagnostics/span.rs, src/tools/add_solution_checks.rs | byte offsets (characters are counted), the regex engine (replaced by the matches it finds), options and output of the tool |
| `FormatModel`, `TaskModel` | format/ioi/format/italian_yaml: gen_gen.rs (with its pest grammar), static_inputs.rs, mod.rs `parse_task` (entries, closure, aggregator, files written), cases_gen.rs (with its pest grammar) and `write_gen_gen`; ioi/mod.rs `clean` | YAML and statements (parameters), Unicode normalization tables, `shell_words::split` (parameters) (a parameter), directories |
| `SandboxModel` | exec/sandbox.rs: `build_command`, `setup`, `run` (reading of the report), paths | tabox itself, failures of disk operations, macOS paths |
| `MiscModel` | format/ioi/sanity_checks/io.rs (all), dag/dag.rs `CacheMode::try_from`, format/tag.rs | the text of the messages |
| `UiStateModel` | format/ioi/ui_state.rs `apply`, ui/mod.rs (statuses), the messages sent by `bind_exec_callbacks`, task_type/{batch,communication}.rs, checker.rs, input generator, validator, output generator | printing, `is_close_to_limits`, contents of diagnostics and of the executor status, Terry |
| `BuildModel` | format/ioi: mod.rs `build_dag`, dag/{input_generator,input_validator,output_generator,checker}.rs, dag/task_type/*.rs (construction); lang: source_file.rs, language.rs, grader_map.rs; builder methods of dag/{dag,execution,execution_group}.rs | booklets and sanity checks; f64 rounding of times (half milliseconds); uuids are a counter; what each language answers is a field of the source file |
| `LangModel` | lang: languages/mod.rs `find_dependencies`, cpp.rs `extract_includes`, python.rs `extract_imports`, lib.rs, grader_map.rs, the compiler and run command lines of the eight languages | non-ASCII text (`\s`, `trim`, `to_lowercase`), symbolic links, detection of the Python version, lookup of the fpc configuration and of RUSTUP_HOME (parameters) |
| `TerryModel` | format: terry/mod.rs `build_dag`, terry/dag/mod.rs (generation, validation, solution, checker, `include_official_solution`); source_file.rs `executable` | the FuzzChecker sanity check, `find_solutions` (a parameter), the random generator (a parameter) |
| `FindModel` | format: lib.rs `list_files`, `EvaluationConfig::find_solutions`, `find_source_file`; solution.rs `Solution::new` (which files); ioi/format/italian_yaml/mod.rs and gen_gen.rs (validator, official solution, checker, manager, generator); terry/format/mod.rs `get_manager`; terry/mod.rs `clean` | the crate glob is not in /repo (its behaviour is modelled, without `**`); errors of the system while listing |
| `BadCaseModel` | src/tools/find_bad_case/dag.rs, whole (IOI tasks) | Terry tasks (an error), the random generator (a parameter), warnings |
| `BadLoopModel` | src/tools/find_bad_case/mod.rs `main_find_bad_case`, `copy_testcase`, the cut of `print_file`; state.rs `UIState::apply` | what an evaluation does (any messages about its testcases), drawing, sums of times, the texts of the report |
| `SanityModel` | ioi/sanity_checks/subtasks.rs `MissingSubtaskNames`, `InvalidSubtaskName`, `DeprecatedDescriptionInSubtask`; task.rs `TaskMaxScore`, `SubtaskDependencies`, `EmptyTitle`; sol.rs `SolutionsWithNoChecks` | the texts and spans of the diagnostics, the matching of a pattern |
| `OutputsModel` | ioi/sanity_checks/subtasks.rs `AllOutputsEqual`, `OutputHasher` | the hash function, the decoding of UTF-8 |
| `LifeModel` | src/context.rs (execute, the ctrl-c handler), client.rs (evaluate, the poller), executor.rs, local_executor.rs, worker_manager.rs, worker.rs (the loops, who holds which sender, who joins whom) | the contents of the messages; the decisions of the scheduler (any messages, at most a given number of jobs); file transfers are one message; crashes of the workers and of the UI |
| `HooksModel` | format: sanity_checks.rs, `get_sanity_check_list` of ioi and terry; cli: opt.rs `skip_sanity_checks_long_help`, the skip list of find-bad-case | the `inventory` crate (any order) |
| `AttModel` | format: ioi/sanity_checks/{att,sol}.rs, mod.rs `check_missing_graders`, task.rs `BrokenSymlinks`, `NoBitsStdCpp` | the executions added by `AttSampleFilesValid` and `AttTemplatesShouldCompile`; the recursive glob (a parameter); non ASCII text |
| `BookletModel`, `BookletModel2` | format: ioi/statement/mod.rs, booklet.rs (`from_contest`, `make_tex`, `build`), statement.rs (`tex`, `packages`, `build_deps`), asy.rs and the two templates | serde_yaml, errors of the glob, the commands, limits and callbacks of the executions, the logs, the crop of the figures |
| `LatexModel` | format: ioi/statement/booklet.rs `emit_warnings` | the crate `regex` (the regex is an automaton on the lines), Unicode digits, the title of the diagnostic |
| `RegexModel`, `StmtModel` | format: ioi/sanity_checks/statement.rs | the crate `regex` is not in /repo: `RegexModel` is its documented leftmost-first semantics for the operators used here; Unicode digits, code spans and texts of the diagnostics, the process git |
| `GenBackModel` | cases_gen.rs: the text of constraints and the content of the gen/GEN written | `SourceFile::name`, `Display` of f64 and `shell_words::split` are parameters |
| `ConnModel` | remote_executor.rs (listeners, `validate_welcome`), the welcome in context.rs and tools/worker.rs, remote.rs (`connect_to_remote_server`) | `Url::parse` of the url crate as documented, for one-byte characters; addresses between brackets, normal forms of paths, name resolution and the attempts are parameters; binding, encryption and keys are not modelled |
| `ReportModel` | ioi/finish_ui.rs (`print`, generations, evaluations, table of the checks, summary), `message` of ui_state.rs, `as_compact_str` of solution.rs | rows and cells instead of characters; information about the task, compilations, booklets, diagnostics and the widths of the scores not modelled; `is_close_to_limits`, order of paths, wildcard matching and links are parameters |
| `FuzzModel` | tools/fuzz_checker.rs (count of the testcases, `write_initial_corpus`, `run_fuzzer`, `organize_failures`), the arguments of the checker in fuzzer.cpp | what libFuzzer finds and the order of `read_dir` are parameters; patching, ctags, compilation, links that are read and errors of the disk not modelled |
| `LocateModel` | detect_format.rs (`find_task`), `is_valid` of both formats | the reading of a task is a parameter (it is the object of C01 and the others); symbolic links not modelled |
| `SpanModel` | span.rs (`from_str`, `as_str`, `to_string`) | sums of offsets do not overflow; colors not modelled |
| `DiagModel` | task-maker-diagnostics/src/lib.rs (`Diagnostic::print`) | colors not modelled; the attachment after `from_utf8_lossy` |
| `ExeModel` | detect_exe.rs, sandbox.rs (`validate_local_executable`) | the content of the file does not change while it is read |
| `TerryUiModel` | format: terry/ui_state.rs `apply`, the messages bound in terry/dag/mod.rs and terry/mod.rs, terry/finish_ui.rs `print_summary` | the JSON parser of the outcome (a parameter), the other texts printed, alerts, the order of the lines |
| `JunkModel` | ioi/sanity_checks/checker.rs, terry/sanity_checks/checker.rs, the callback of dag/checker.rs with its diagnostics | parsing of the score and of JSON are parameters; how the executions are built is C67/C70; the bad outputs of the data directory are a parameter |
| `SettingsModel` | italian_yaml/mod.rs (`TaskYAML`, `TaskYAMLOrig`, `into_task_yaml`, `cms_serialize_score_type`, `map_file`, `user_io`, the task.yaml that is written) | serde_yaml is not in /repo: the mapping of the document and the derived code of serde are modelled, tags, anchors and the syntax of numbers are not |
| `DotModel` | src/copy_dag.rs (all), `Execution::dependencies` | the `{:?}` of the command is a field; HashMaps are lists in iteration order |
| `InfoModel` | task-maker-format/src/ioi/task_info.rs (`IOITaskInfo::new`), ioi/mod.rs `path_of`, src/tools/copy_competition_files.rs | the file system has files and directories only; loading, evaluation and mime types are parameters |
| `OptModel` | src/opt.rs, src/local.rs, src/context.rs (`new`, `connect_executor`), ui/mod.rs `UIType`, dag.rs `ExecutionDAGConfig` | the operations are events with an oracle; clap is not modelled |
| `CompModel` | task-maker-format/src/source_file.rs, `bind_exec_callbacks!`, lang/source_file.rs `prepare` (which calls compile), client.rs (the notifications) | the disk is an oracle; only the callbacks of source_file.rs |
| `RunnerModel` | src/sandbox.rs, exec/sandbox.rs `Sandbox::run` (after `build_command`) and `kill`, exec/worker.rs `check_sandbox_is_supported` and the single execution of a group, exec/find_tools.rs | tabox and JSON are parameters; the reuse of a pid by another process and the failures of kill(2) (a warning) are left out |
| `ResetModel` | src/tools/reset.rs `main_reset`, with walkdir and `remove_dir_all` over a tree with permissions | text is ASCII; a store that is itself a link, links to directories of the tree, and other processes that change the tree meanwhile are left out; inside the tree all belongs to the user |
| `CursesModel` | format/ui/curses.rs (all that is drawn), the layouts of ioi/curses_ui.rs and terry/curses_ui.rs, `draw_booklets` | u16/i16 do not wrap (but the number of workers); the heights chosen by ratatui when the lengths do not fit, colors, and the terminal are left out; the rows of the evaluations are those of C89 |
| `EnvModel` | lang/languages/{cpp,c,rust}.rs `from_env`, pascal.rs `find_fpc_cfg`, lib.rs `LanguageManager::new` | `shell_words::split` is a dependency, written from its source; which::which and the existence of files are parameters; strings are bytes |
| `ShellWordsModel` | `shell_words::split` as used in cases_gen.rs:332, 398, and `parse_cases_gen` with it | a dependency, written from its source; the same function on bytes is that of `EnvModel` (proved) |
| `AttDagModel` | `AttSampleFilesValid::pre_hook` after `IOITask::build_dag` | the pairs of sample files and the validator are given; the callback of an execution is recorded as a message |
| `PrintUiModel` | `PrintUI::on_message` | the colors and the messages that are tables are left out; which characters are printable is any predicate; scores and workers are texts |
| `StatusSpec` | exec/scheduler.rs `handle_status_request`, `connected_workers`, `clients` (in `SchedModel`) | specification only: folds over the trace; the names and times of the answer are not modelled |

## 5. Print Assumptions

Every property theorem is followed, at the end of its `XxxProps.v`, by `Print Assumptions`. All theorems are
"Closed under the global context" except those whose statement is about real numbers: `C40_min`, `C40_sum`, `C40_empty`,
`C40_bounds`, `C40_monotone`, `C40_example`, `C50_status`, `C50_zero`, `C50_one`, `C71_floor`, `C75_max_score_partial`, `C85_points`, and the theorems `C54_*` about times, which use the axioms of the standard
library's real numbers:

* `ClassicalDedekindReals.sig_not_dec`
* `ClassicalDedekindReals.sig_forall_dec`
* `FunctionalExtensionality.functional_extensionality_dep`
* `Classical_Prop.classic`

The seven `Coq.ssr.ssrunder.*` names reported for the loaded libraries are those of the standard library's `ssreflect`
under-rewriting; no theorem depends on them.
