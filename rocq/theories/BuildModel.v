(** * BuildModel: the execution DAG built for a task

    Models task-maker-lang/src/source_file.rs ([prepare], [execute]), language.rs ([SimpleCompiledLanguageBuilder]),
    grader_map.rs, the builder methods of task-maker-dag/src/{dag.rs,execution.rs,execution_group.rs}, and, of
    task-maker-format/src/ioi: mod.rs [IOITask::build_dag] (lines 263-394), dag/{input_generator,input_validator,
    output_generator,checker}.rs, dag/mod.rs [bind_exec_io!], dag/task_type/{mod,batch,communication}.rs.

    Simplifications:
    - [Uuid::new_v4] is a counter: all the identifiers are distinct.
    - A HashMap is an association list in order of first insertion; inserting an existing key replaces its value.
    - Paths are strings.  The disk is [world]: which paths exist and the store key of their content.
    - Times of a task are in milliseconds, those of a DAG in half milliseconds, so that 1.5 times a limit is exact:
      no f64 rounding.  Memory is in u64.
    - [bind_exec_callbacks!] is the pair of the execution and of the message it is bound to; the other callbacks are in
      [ScoreModel] and [UiStateModel].
    - Booklets and sanity checks are left out. *)
From Verif Require Export DagModel CheckDagModel.
From stdpp Require Export pretty.
From Coq Require Import Ascii String.
From stdpp Require Import base.

(** An early return [Err(..)], a panic, or a value. *)
Inductive res (A : Type) := ROk (a : A) | RErr | RPanic.
Arguments ROk {A} _. Arguments RErr {A}. Arguments RPanic {A}.

(** dag.rs:152-220: what [bind_exec_callbacks!] (format/src/lib.rs:317-359) binds an execution to. *)
Inductive role :=
  | RCompilation (path : string)
  | RGeneration (subtask testcase : nat)
  | RValidation (subtask testcase : nat)
  | RSolution (subtask testcase : nat)
  | REvaluation (subtask testcase : nat) (solution : string) (part num_parts : nat)
  | RChecker (subtask testcase : nat) (solution : string)
  (* terry/dag/mod.rs: a Terry task has one input for each solution *)
  | RTerryGeneration (solution : string) (seed : N)
  | RTerryValidation (solution : string)
  | RTerrySolution (solution : string)
  | RTerryChecker (solution : string).
Global Instance role_eq_dec : EqDecision role.
Proof. solve_decision. Defined.

(** The DAG under construction (dag.rs:96-125), the next identifier and, for each source file, the handle
    [SourceFile::executable] (source_file.rs:36). *)
Record bstate := BState {
  b_next : positive;
  b_provided : list (file_uuid * store_key);
  b_groups : list (group_uuid * group);
  b_exes : gmap positive file_uuid;
  b_written : list (file_uuid * (string * bool));
  b_roles : list (exec_uuid * role)
}.
Definition M (A : Type) : Type := bstate -> res (A * bstate).
Definition ret {A} (a : A) : M A := fun s => ROk (a, s).
Definition err {A} : M A := fun _ => RErr.
Definition panic {A} : M A := fun _ => RPanic.
Definition bind {A B} (m : M A) (f : A -> M B) : M B :=
  fun s => match m s with ROk (a, s') => f a s' | RErr => RErr | RPanic => RPanic end.
Notation "'do' x <- m ; k" := (bind m (fun x => k)) (at level 200, x name, m at level 100, k at level 200, right associativity).
Notation "m ;! k" := (bind m (fun _ => k)) (at level 199, k at level 200, right associativity).
Fixpoint mfold {A B} (f : B -> A -> M B) (l : list A) (b : B) : M B :=
  match l with [] => ret b | x :: l => do b' <- f b x; mfold f l b' end.
Fixpoint mforeach {A} (f : A -> M unit) (l : list A) : M unit :=
  match l with [] => ret tt | x :: l => f x ;! mforeach f l end.

Definition new_id : M positive := fun s =>
  ROk (b_next s, BState (Pos.succ (b_next s)) (b_provided s) (b_groups s) (b_exes s) (b_written s) (b_roles s)).

(** HashMap::insert *)
Fixpoint ainsert {K V} `{EqDecision K} (k : K) (v : V) (l : list (K * V)) : list (K * V) :=
  match l with
  | [] => [(k, v)]
  | (k', v') :: l => if decide (k = k') then (k, v) :: l else (k', v') :: ainsert k v l
  end.
(** HashMap::get *)
Fixpoint aget {K V} `{EqDecision K} (k : K) (l : list (K * V)) : option V :=
  match l with [] => None | (k', v) :: l => if decide (k = k') then Some v else aget k l end.

(** The local disk: [Path::exists] and [FileStoreKey::from_file] (store/src/lib.rs:414-431). *)
Record world := World { w_exists : string -> bool; w_key : string -> option store_key }.

(** dag.rs:125-137 [ExecutionDAG::provide_file] *)
Definition provide_file (w : world) (f : file_uuid) (path : string) : M unit := fun s =>
  match w_key w path with
  | Some k => ROk (tt, BState (b_next s) (ainsert f k (b_provided s)) (b_groups s) (b_exes s) (b_written s) (b_roles s))
  | None => RErr
  end.
(** [let file = File::new(..); dag.provide_file(file, path)?] *)
Definition provide_new (w : world) (path : string) : M file_uuid := do f <- new_id; provide_file w f path ;! ret f.
(** dag.rs:140-150 [ExecutionDAG::provide_content] *)
Definition provide_key (f : file_uuid) (k : store_key) : M unit := fun s =>
  ROk (tt, BState (b_next s) (ainsert f k (b_provided s)) (b_groups s) (b_exes s) (b_written s) (b_roles s)).

(** What is fixed for a whole evaluation: the configuration of the DAG (dag.rs:23-45), the store key of the empty file. *)
Record build_config := BuildConfig { bc_dag : dag_config; bc_copy_exe : bool; bc_empty : store_key }.

(** dag.rs:177-191 [write_file_to] *)
Definition write_file_to (c : build_config) (f : file_uuid) (path : string) (exe : bool) : M unit := fun s =>
  if cfg_dry_run (bc_dag c) then ROk (tt, s)
  else ROk (tt, BState (b_next s) (b_provided s) (b_groups s) (b_exes s) (ainsert f (path, exe) (b_written s)) (b_roles s)).

Definition bind_role (e : execution) (r : role) : M unit := fun s =>
  ROk (tt, BState (b_next s) (b_provided s) (b_groups s) (b_exes s) (b_written s) (b_roles s ++ [(e_uuid e, r)])).

(** ** Builder methods of [Execution] (execution.rs:432-768) *)
(** execution.rs:379-399 *)
Definition default_limits : limits :=
  Limits None None None None false None (Some 1073741824)%Z None None true false false [].
(** execution.rs:432-470; the configuration is set by [add_execution] *)
Definition exec_new (u : exec_uuid) (cmd : command) : execution :=
  Execution u cmd [] None None None None None [] [] None None None [] [] default_limits
    (DagConfig false CacheEverything 0 0 0) None 0.
Definition set_args (a : list string) (e : execution) : execution :=
  Execution (e_uuid e) (e_command e) a (e_stdin e) (e_stdout e) (e_stderr e) (e_capture_stdout e) (e_capture_stderr e)
    (e_inputs e) (e_outputs e) (e_stdin_redirect e) (e_stdout_redirect e) (e_stderr_redirect e) (e_env e) (e_copy_env e)
    (e_limits e) (e_config e) (e_tag e) (e_priority e).
(** execution.rs:540-544 *)
Definition set_stdin (f : file_uuid) (e : execution) : execution :=
  Execution (e_uuid e) (e_command e) (e_args e) (Some f) (e_stdout e) (e_stderr e) (e_capture_stdout e) (e_capture_stderr e)
    (e_inputs e) (e_outputs e) (e_stdin_redirect e) (e_stdout_redirect e) (e_stderr_redirect e) (e_env e) (e_copy_env e)
    (e_limits e) (e_config e) (e_tag e) (e_priority e).
Definition set_out (f : file_uuid) (e : execution) : execution :=
  Execution (e_uuid e) (e_command e) (e_args e) (e_stdin e) (Some f) (e_stderr e) (e_capture_stdout e) (e_capture_stderr e)
    (e_inputs e) (e_outputs e) (e_stdin_redirect e) (e_stdout_redirect e) (e_stderr_redirect e) (e_env e) (e_copy_env e)
    (e_limits e) (e_config e) (e_tag e) (e_priority e).
Definition set_err (f : file_uuid) (e : execution) : execution :=
  Execution (e_uuid e) (e_command e) (e_args e) (e_stdin e) (e_stdout e) (Some f) (e_capture_stdout e) (e_capture_stderr e)
    (e_inputs e) (e_outputs e) (e_stdin_redirect e) (e_stdout_redirect e) (e_stderr_redirect e) (e_env e) (e_copy_env e)
    (e_limits e) (e_config e) (e_tag e) (e_priority e).
Definition set_captures (out er : option N) (e : execution) : execution :=
  Execution (e_uuid e) (e_command e) (e_args e) (e_stdin e) (e_stdout e) (e_stderr e) out er
    (e_inputs e) (e_outputs e) (e_stdin_redirect e) (e_stdout_redirect e) (e_stderr_redirect e) (e_env e) (e_copy_env e)
    (e_limits e) (e_config e) (e_tag e) (e_priority e).
Definition set_inputs (i : list (path * exec_input)) (e : execution) : execution :=
  Execution (e_uuid e) (e_command e) (e_args e) (e_stdin e) (e_stdout e) (e_stderr e) (e_capture_stdout e) (e_capture_stderr e)
    i (e_outputs e) (e_stdin_redirect e) (e_stdout_redirect e) (e_stderr_redirect e) (e_env e) (e_copy_env e)
    (e_limits e) (e_config e) (e_tag e) (e_priority e).
Definition set_outputs (o : list (path * file_uuid)) (e : execution) : execution :=
  Execution (e_uuid e) (e_command e) (e_args e) (e_stdin e) (e_stdout e) (e_stderr e) (e_capture_stdout e) (e_capture_stderr e)
    (e_inputs e) o (e_stdin_redirect e) (e_stdout_redirect e) (e_stderr_redirect e) (e_env e) (e_copy_env e)
    (e_limits e) (e_config e) (e_tag e) (e_priority e).
(** execution.rs:556-561, 588-592: the assertion [stdin.is_none()] cannot fail where it is called *)
Definition set_redirects (i o : option path) (e : execution) : execution :=
  Execution (e_uuid e) (e_command e) (e_args e) (e_stdin e) (e_stdout e) (e_stderr e) (e_capture_stdout e) (e_capture_stderr e)
    (e_inputs e) (e_outputs e) i o (e_stderr_redirect e) (e_env e) (e_copy_env e)
    (e_limits e) (e_config e) (e_tag e) (e_priority e).
Definition set_env (v : list (string * string)) (cp : list string) (e : execution) : execution :=
  Execution (e_uuid e) (e_command e) (e_args e) (e_stdin e) (e_stdout e) (e_stderr e) (e_capture_stdout e) (e_capture_stderr e)
    (e_inputs e) (e_outputs e) (e_stdin_redirect e) (e_stdout_redirect e) (e_stderr_redirect e) v cp
    (e_limits e) (e_config e) (e_tag e) (e_priority e).
Definition set_limits (l : limits) (e : execution) : execution :=
  Execution (e_uuid e) (e_command e) (e_args e) (e_stdin e) (e_stdout e) (e_stderr e) (e_capture_stdout e) (e_capture_stderr e)
    (e_inputs e) (e_outputs e) (e_stdin_redirect e) (e_stdout_redirect e) (e_stderr_redirect e) (e_env e) (e_copy_env e)
    l (e_config e) (e_tag e) (e_priority e).
Definition set_config (c : dag_config) (e : execution) : execution :=
  Execution (e_uuid e) (e_command e) (e_args e) (e_stdin e) (e_stdout e) (e_stderr e) (e_capture_stdout e) (e_capture_stderr e)
    (e_inputs e) (e_outputs e) (e_stdin_redirect e) (e_stdout_redirect e) (e_stderr_redirect e) (e_env e) (e_copy_env e)
    (e_limits e) c (e_tag e) (e_priority e).
Definition set_tag (t : string) (p : Z) (e : execution) : execution :=
  Execution (e_uuid e) (e_command e) (e_args e) (e_stdin e) (e_stdout e) (e_stderr e) (e_capture_stdout e) (e_capture_stderr e)
    (e_inputs e) (e_outputs e) (e_stdin_redirect e) (e_stdout_redirect e) (e_stderr_redirect e) (e_env e) (e_copy_env e)
    (e_limits e) (e_config e) (Some t) p.
(** execution.rs:673-688 [input] *)
Definition add_input (f : file_uuid) (p : path) (exe : bool) (e : execution) : execution :=
  set_inputs (ainsert p (ExecInput f exe) (e_inputs e)) e.
(** execution.rs:573-579 [stdout]; 604-610 [stderr] *)
Definition stdout_of (e : execution) : M (file_uuid * execution) :=
  match e_stdout e with
  | Some f => ret (f, e)
  | None => do f <- new_id; ret (f, set_out f e)
  end.
Definition stderr_of (e : execution) : M (file_uuid * execution) :=
  match e_stderr e with
  | Some f => ret (f, e)
  | None => do f <- new_id; ret (f, set_err f e)
  end.
(** execution.rs:632-636, 647-651 *)
Definition capture_stdout (n : N) (e : execution) : M execution :=
  do fe <- stdout_of e; ret (set_captures (Some n) (e_capture_stderr (snd fe)) (snd fe)).
Definition capture_stderr (n : N) (e : execution) : M execution :=
  do fe <- stderr_of e; ret (set_captures (e_capture_stdout (snd fe)) (Some n) (snd fe)).
(** execution.rs:701-704 [output] *)
Definition output_of (p : path) (e : execution) : M (file_uuid * execution) :=
  do f <- new_id;
  match aget p (e_outputs e) with
  | Some f' => ret (f', e)
  | None => ret (f, set_outputs (e_outputs e ++ [(p, f)]) e)
  end.
(** execution.rs:715-718 [env], 729-732 [copy_env] *)
Definition add_env (k v : string) (e : execution) : execution := set_env (ainsert k v (e_env e)) (e_copy_env e) e.
Definition copy_env (k : string) (e : execution) : execution := set_env (e_env e) (e_copy_env e ++ [k]) e.

(** Changes of the limits: execution.rs:285-377 *)
Definition allow_multiprocess (l : limits) : limits :=
  Limits (l_cpu_time l) (l_sys_time l) (l_wall_time l) (l_memory l) true (l_nofile l) (l_fsize l) (l_memlock l) (l_stack l)
    (l_read_only l) (l_mount_tmpfs l) (l_mount_proc l) (l_extra_readable_dirs l).
Definition set_times (cpu wall : option Z) (l : limits) : limits :=
  Limits cpu (l_sys_time l) wall (l_memory l) (l_allow_multiprocess l) (l_nofile l) (l_fsize l) (l_memlock l) (l_stack l)
    (l_read_only l) (l_mount_tmpfs l) (l_mount_proc l) (l_extra_readable_dirs l).
Definition set_memory (m : option Z) (l : limits) : limits :=
  Limits (l_cpu_time l) (l_sys_time l) (l_wall_time l) m (l_allow_multiprocess l) (l_nofile l) (l_fsize l) (l_memlock l) (l_stack l)
    (l_read_only l) (l_mount_tmpfs l) (l_mount_proc l) (l_extra_readable_dirs l).
Definition set_mounts (ro tmp proc : bool) (l : limits) : limits :=
  Limits (l_cpu_time l) (l_sys_time l) (l_wall_time l) (l_memory l) (l_allow_multiprocess l) (l_nofile l) (l_fsize l) (l_memlock l) (l_stack l)
    ro tmp proc (l_extra_readable_dirs l).

Definition add_readable_dirs (d : list path) (l : limits) : limits :=
  Limits (l_cpu_time l) (l_sys_time l) (l_wall_time l) (l_memory l) (l_allow_multiprocess l) (l_nofile l) (l_fsize l) (l_memlock l) (l_stack l)
    (l_read_only l) (l_mount_tmpfs l) (l_mount_proc l) (l_extra_readable_dirs l ++ d).

(** dag.rs:153-158 [add_execution], 161-166 [add_execution_group], execution_group.rs *)
Definition add_group (c : build_config) (g : group_uuid) (es : list execution) (fifos : list fifo_uuid) : M unit := fun s =>
  ROk (tt, BState (b_next s) (b_provided s) (b_groups s ++ [(g, Group g (map (set_config (bc_dag c)) es) fifos)]) (b_exes s)
             (b_written s) (b_roles s)).
Definition add_execution (c : build_config) (e : execution) : M unit := do g <- new_id; add_group c g [e] [].

(** ** Source files *)
(** A dependency that is put in the sandbox: lib.rs:49-61 [Dependency] (without its handle). *)
Record dependency := Dependency { dp_local : string; dp_sandbox : string }.

(** language.rs:137-171 [SimpleCompiledLanguageBuilder], as filled in by the [compilation_builder] of a language
    (settings included); [cs_env] and [cs_dirs] are what its callback adds (environment, readable directories). *)
Record compile_spec := CompileSpec {
  cs_compiler : command; cs_args : list string; cs_source_name : string; cs_binary : string;
  cs_deps : list dependency; cs_grader_only : bool; cs_env : list (string * string); cs_dirs : list path }.

(** A source file (source_file.rs:20-45) together with the answers of its language (language.rs:17-91):
    [sf_id] is the identity of the shared handle [executable]. *)
Record source := Source {
  sf_id : positive; sf_path : string; sf_base : string;
  sf_compile : option compile_spec;                   (* compilation_builder *)
  sf_grader : option (file_uuid * dependency);        (* grader_map: the entry of this language *)
  sf_write_to : option string; sf_copy_exe : bool;
  sf_exe_name : string;                               (* executable_name *)
  sf_command : command;                               (* runtime_command *)
  sf_args : list string -> list string;               (* runtime_args, then runtime_add_file *)
  sf_runtime_deps : list dependency;                  (* runtime_dependencies *)
  sf_limits : limits -> limits }.                     (* custom_limits *)

(** Path::join *)
Definition starts_with_slash (s : string) : bool :=
  match s with String c _ => bool_decide (c = "/"%char) | EmptyString => false end.
Definition path_join (b a : string) : string :=
  if starts_with_slash a then a else if bool_decide (b = "") then a else b +:+ "/" +:+ a.

Definition comp_priority : Z := 1000000000.
Definition gen_priority : Z := 1000000.
Definition eval_priority : Z := 1000.
Definition comp_length : N := 10240.
(** ioi/mod.rs: STDERR_CONTENT_LENGTH *)
Definition stderr_length : N := 10240.

(** a dependency with a new handle: [exec.input(&dep.file, ..); dag.provide_file(dep.file, ..)?] *)
Definition add_dep (w : world) (e : execution) (d : dependency) : M execution :=
  do f <- provide_new w (dp_local d); ret (add_input f (dp_sandbox d) false e).

(** language.rs:226-275 [finalize]; the order of [input] and [provide_file] does not matter: both or an error. *)
Definition compile (w : world) (c : build_config) (s : source) (cs : compile_spec) : M (execution * file_uuid) :=
  do u <- new_id;
  do e <- mfold (add_dep w) (cs_deps cs) (set_args (cs_args cs) (exec_new u (cs_compiler cs)));
  do f <- provide_new w (sf_path s);
  let e := add_input f (cs_source_name cs) false e in
  do e <- (match sf_grader s with
           | Some (gf, gd) =>
               provide_file w gf (dp_local gd) ;!
               ret (add_input gf (dp_sandbox gd) false
                      (set_args (e_args e ++ [dp_sandbox gd] ++ (if cs_grader_only cs then [] else [cs_source_name cs])) e))
           | None => ret (set_args (e_args e ++ [cs_source_name cs]) e)
           end);
  do fe <- output_of (cs_binary cs) e;
  (if bc_copy_exe c || sf_copy_exe s
   then match sf_write_to s with Some p => write_file_to c (fst fe) p true | None => ret tt end
   else ret tt) ;!
  let e := fold_left (fun e kv => add_env (fst kv) (snd kv) e) (cs_env cs) (snd fe) in
  ret (set_limits (add_readable_dirs (cs_dirs cs) (e_limits e)) e, fst fe).

Definition exe_handle (s : source) : M (option file_uuid) := fun st => ROk (b_exes st !! sf_id s, st).
Definition set_exe (s : source) (f : file_uuid) : M unit := fun st =>
  ROk (tt, BState (b_next st) (b_provided st) (b_groups st) (<[sf_id s := f]> (b_exes st)) (b_written st) (b_roles st)).

(** source_file.rs:236-285 [prepare], and format/src/source_file.rs:83-119 [bind_compilation_exe] *)
Definition prepare (w : world) (c : build_config) (s : source) : M unit :=
  do h <- exe_handle s;
  match h with
  | Some _ => ret tt
  | None =>
    match sf_compile s with
    | Some cs =>
      do ef <- compile w c s cs;
      do e <- capture_stdout comp_length (set_tag "compilation" comp_priority (fst ef));
      do e <- capture_stderr comp_length e;
      let e := set_limits (set_mounts false true true (allow_multiprocess (e_limits e))) e in
      add_execution c e ;!
      set_exe s (snd ef) ;!
      bind_role e (RCompilation (sf_path s))
    | None =>
      do f <- new_id;
      (if bc_copy_exe c || sf_copy_exe s
       then match sf_write_to s with Some p => write_file_to c f p true | None => ret tt end
       else ret tt) ;!
      set_exe s f ;!
      provide_file w f (sf_path s)
    end
  end.

(** source_file.rs:152-165: an argument that is the name of an existing file *)
Definition add_arg_file (w : world) (s : source) (e : execution) (arg : string) : M execution :=
  if w_exists w (path_join (sf_base s) arg)
  then do f <- provide_new w (path_join (sf_base s) arg); ret (add_input f arg false e)
  else ret e.

(** source_file.rs:138-189 [execute] *)
Definition execute (w : world) (c : build_config) (s : source) (args : list string) : M execution :=
  prepare w c s ;!
  do u <- new_id;
  do e <- mfold (add_arg_file w s) args (exec_new u (sf_command s));
  let e := set_args (sf_args s args) e in
  do h <- exe_handle s;
  match h with
  | None => panic                          (* executable.lock().unwrap().as_ref().unwrap() *)
  | Some exe =>
    let e := add_input exe (sf_exe_name s) true e in
    do e <- mfold (add_dep w) (sf_runtime_deps s) e;
    do e <- (match sf_grader s, sf_compile s with
             | Some (gf, gd), None => provide_file w gf (dp_local gd) ;! ret (add_input gf (dp_sandbox gd) false e)
             | _, _ => ret e               (* grader_map.rs:85-91: nothing for compiled languages *)
             end);
    ret (copy_env "LC_ALL" (copy_env "LANG" (set_limits (sf_limits s (e_limits e)) e)))
  end.

(** ** Tasks *)
Inductive input_generator := IStatic (p : string) | ICustom (s : source) (args : list string).
Inductive input_validator := VAssume | VCustom (s : source) (args : list string).
Inductive output_generator := ONotAvailable | OStatic (p : string) | OCustom (s : source) (args : list string).
Inductive checker := CWhiteDiff | CCustom (s : source).
Inductive user_io := StdIo | FifoIo.
Inductive task_type := TBatch (c : checker) | TCommunication (manager : source) (num_processes : nat) (io : user_io) | TNone.
Record btestcase := BTestcase { bt_input : input_generator; bt_output : output_generator }.
Record bsubtask := BSubtask {
  bs_id : nat; bs_name : option string; bs_validator : input_validator; bs_testcases : list nat; bs_owned : list nat }.
(** ioi/mod.rs:102-165; [bk_subtasks] in the iteration order of the map. *)
Record btask := BTask {
  bk_path : string; bk_type : task_type; bk_time : option Z; bk_memory : option Z; bk_infile : option path;
  bk_outfile : option path; bk_subtasks : list bsubtask; bk_testcases : gmap nat btestcase }.

(** dag/input_generator.rs:30-62 [generate] *)
Definition generate_input (w : world) (c : build_config) (g : input_generator) (tc : nat) : M (file_uuid * option execution) :=
  match g with
  | IStatic p => if w_exists w p then do f <- provide_new w p; ret (f, None) else err
  | ICustom s args =>
    do e <- execute w c s args;
    let e := set_tag "generation" (gen_priority - Z.of_nat tc) (set_limits (allow_multiprocess (e_limits e)) e) in
    do fe <- stdout_of e;
    ret (fst fe, Some (snd fe))
  end.
(** dag/input_generator.rs:66-117 [generate_and_bind] *)
Definition input_file_name (task : string) (tc : nat) : string := path_join (path_join task "input") ("input" +:+ pretty tc +:+ ".txt").
Definition bind_input (w : world) (c : build_config) (t : btask) (g : input_generator) (st tc : nat) : M file_uuid :=
  do fe <- generate_input w c g tc;
  write_file_to c (fst fe) (input_file_name (bk_path t) tc) false ;!
  match snd fe with
  | Some e =>
    do e <- capture_stderr stderr_length e;
    bind_role e (RGeneration st tc) ;!
    add_execution c e ;!
    ret (fst fe)
  | None => ret (fst fe)
  end.

(** dag/input_validator.rs:35-64 [validate]; 69-112 [validate_and_bind] *)
Definition bind_validation (w : world) (c : build_config) (v : input_validator) (st : nat) (name : option string) (tc : nat)
    (input : file_uuid) : M (option file_uuid) :=
  match v with
  | VAssume => ret None
  | VCustom s args =>
    do e <- execute w c s args;
    let e := add_env "TM_TESTCASE" (pretty tc) (add_env "TM_SUBTASK" (pretty st)
               (set_tag "generation" (gen_priority - Z.of_nat tc) (add_input input "tm_validation_file" false e))) in
    let e := match name with Some n => add_env "TM_SUBTASK_NAME" n e | None => e end in
    let e := set_limits (allow_multiprocess (e_limits e)) e in
    do fe <- stdout_of e;
    do e <- capture_stderr stderr_length (snd fe);
    bind_role e (RValidation st tc) ;!
    add_execution c e ;!
    ret (Some (fst fe))
  end.

(** dag/mod.rs:47-65 [bind_exec_io!] *)
Definition bind_exec_io (t : btask) (input : file_uuid) (val : option file_uuid) (e : execution) : M (file_uuid * execution) :=
  let e := match bk_infile t with None => set_stdin input e | Some p => add_input input p false e end in
  let e := match val with Some f => add_input f "wait_for_validation" false e | None => e end in
  match bk_outfile t with None => stdout_of e | Some p => output_of p e end.

(** dag/output_generator.rs:33-77 [generate]; 81-134 [generate_and_bind] *)
Definition output_file_name (task : string) (tc : nat) : string := path_join (path_join task "output") ("output" +:+ pretty tc +:+ ".txt").
Definition bind_output (w : world) (c : build_config) (t : btask) (g : output_generator) (st tc : nat) (input : file_uuid)
    (val : option file_uuid) : M file_uuid :=
  do out <- (match g with
    | ONotAvailable => do f <- new_id; provide_key f (bc_empty c) ;! ret f
    | OStatic p => if w_exists w p then provide_new w p else err
    | OCustom s args =>
      do e <- execute w c s args;
      do fe <- bind_exec_io t input val (set_tag "generation" (gen_priority - Z.of_nat tc) e);
      do e <- capture_stderr stderr_length (snd fe);
      bind_role e (RSolution st tc) ;!
      add_execution c e ;!
      ret (fst fe)
    end);
  write_file_to c out (output_file_name (bk_path t) tc) false ;!
  ret out.

(** The limits of a solution: batch.rs:57-64, communication.rs:150-157.  Times in half milliseconds; u64 product. *)
Definition solution_limits (t : btask) (l : limits) : limits :=
  let l := match bk_time t with Some ms => set_times (Some (2 * ms)%Z) (Some (3 * ms + 2000)%Z) l | None => l end in
  match bk_memory t with Some m => set_memory (Some ((m * 1024) mod 18446744073709551616)%Z) l | None => l end.
(** communication.rs:205-214: (time_limit + 1) * num_processes, then * 1.5 + 1 *)
Definition manager_limits (t : btask) (n : nat) (l : limits) : limits :=
  let l := match bk_time t with
           | Some ms => set_times (Some (2 * ((ms + 1000) * Z.of_nat n))%Z) (Some (3 * ((ms + 1000) * Z.of_nat n) + 2000)%Z) l
           | None => l end in
  match bk_memory t with Some m => set_memory (Some ((m * 1024) mod 18446744073709551616)%Z) l | None => l end.

(** dag/checker.rs:36-141 [check], 146-188 [check_and_bind] *)
Definition bind_checker (w : world) (c : build_config) (ck : checker) (st tc : nat) (sol : string)
    (input correct test : file_uuid) : M unit :=
  do e <- (match ck with
    | CWhiteDiff =>
      do u <- new_id;
      ret (set_tag "checking" (eval_priority - Z.of_nat tc)
        (add_input test "test" false (add_input correct "correct" false
          (set_args ["--brief"; "--speed-large-files"; "--ignore-blank-lines"; "--ignore-space-change"; "correct"; "test"]
            (exec_new u (System "diff"))))))
    | CCustom s =>
      do e <- execute w c s ["input"; "correct_output"; "test_output"];
      let e := add_input test "test_output" false (add_input correct "correct_output" false (add_input input "input" false e)) in
      do e <- capture_stdout 128 (set_tag "checking" (eval_priority - Z.of_nat tc) e);
      do e <- capture_stderr stderr_length e;
      ret (set_limits (allow_multiprocess (e_limits e)) e)
    end);
  bind_role e (RChecker st tc sol) ;!
  add_execution c e.

(** dag/task_type/batch.rs:26-110 [evaluate] *)
Definition evaluate_batch (w : world) (c : build_config) (t : btask) (ck : checker) (st tc : nat) (sol : source)
    (input : file_uuid) (val : option file_uuid) (correct : file_uuid) : M unit :=
  do e <- execute w c sol [];
  do fe <- bind_exec_io t input val (set_tag "evaluation" (eval_priority - Z.of_nat tc) e);
  let e := set_limits (solution_limits t (e_limits (snd fe))) (snd fe) in
  bind_role e (REvaluation st tc (sf_path sol) 0 1) ;!
  add_execution c e ;!
  bind_checker w c ck st tc (sf_path sol) input correct (fst fe).

(** execution_group.rs:51-54, FIFO_SANDBOX_DIR *)
Definition fifo_path (u : fifo_uuid) : string := "tm_pipes/" +:+ pretty (N.pos u).

(** communication.rs:121-177: the process number [i] of [n] *)
Definition process (w : world) (c : build_config) (t : btask) (io : user_io) (st tc : nat) (sol : source) (n : nat)
    (p : nat * (fifo_uuid * fifo_uuid)) : M execution :=
  let '(i, (m2s, s2m)) := p in
  let args := match io with FifoIo => [fifo_path m2s; fifo_path s2m] | StdIo => [] end ++
              (if decide (1 < n) then [pretty i] else []) in
  do e <- execute w c sol args;
  let e := match io with StdIo => set_redirects (Some (fifo_path m2s)) (Some (fifo_path s2m)) e | FifoIo => e end in
  let e := set_tag "evaluation" (eval_priority - Z.of_nat tc) e in
  let e := set_limits (solution_limits t (e_limits e)) e in
  bind_role e (REvaluation st tc (sf_path sol) i n) ;!
  ret e.

Fixpoint processes (w : world) (c : build_config) (t : btask) (io : user_io) (st tc : nat) (sol : source) (n : nat)
    (l : list (nat * (fifo_uuid * fifo_uuid))) : M (list execution) :=
  match l with
  | [] => ret []
  | p :: l => do e <- process w c t io st tc sol n p; do es <- processes w c t io st tc sol n l; ret (e :: es)
  end.
(** communication.rs:85-101: the pipes, numbered *)
Fixpoint new_fifos (i k : nat) : M (list (nat * (fifo_uuid * fifo_uuid))) :=
  match k with
  | O => ret []
  | S k => do a <- new_id; do b <- new_id; do l <- new_fifos (S i) k; ret ((i, (a, b)) :: l)
  end.

(** dag/task_type/communication.rs:66-249 [evaluate] *)
Definition evaluate_communication (w : world) (c : build_config) (t : btask) (manager : source) (n : nat) (io : user_io)
    (st tc : nat) (sol : source) (input : file_uuid) (val : option file_uuid) : M unit :=
  do g <- new_id;
  do fifos <- new_fifos 0 n;
  do es <- processes w c t io st tc sol n fifos;
  do e <- execute w c manager (fifos ≫= (fun p => [fifo_path (snd (snd p)); fifo_path (fst (snd p))]));
  do e <- capture_stdout 128 (set_tag "evaluation" (eval_priority - Z.of_nat tc) e);
  do e <- capture_stderr 1024 e;
  do fe <- bind_exec_io t input val e;
  let e := set_limits (manager_limits t n (e_limits (snd fe))) (snd fe) in
  bind_role e (RChecker st tc (sf_path sol)) ;!
  add_group c g (es ++ [e]) (fifos ≫= (fun p => [fst (snd p); snd (snd p)])).

(** dag/task_type/mod.rs:36-73 [evaluate] *)
Definition evaluate (w : world) (c : build_config) (t : btask) (st tc : nat) (input : file_uuid) (val : option file_uuid)
    (correct : file_uuid) (sol : source) : M unit :=
  match bk_type t with
  | TBatch ck => evaluate_batch w c t ck st tc sol input val correct
  | TCommunication manager n io => evaluate_communication w c t manager n io st tc sol input val
  | TNone => ret tt
  end.
(** dag/task_type/mod.rs:78-93 [prepare_dag] *)
Definition prepare_task (w : world) (c : build_config) (t : btask) : M unit :=
  match bk_type t with
  | TBatch (CCustom s) => prepare w c s
  | TCommunication manager _ _ => prepare w c manager
  | _ => ret tt
  end.

(** ioi/mod.rs:313-368: one owned testcase of a subtask; [acc] is [generated_io] (only the input is used later) *)
Definition build_testcase (w : world) (c : build_config) (t : btask) (sols : list source) (s : bsubtask)
    (acc : gmap nat file_uuid) (tc : nat) : M (gmap nat file_uuid) :=
  match bk_testcases t !! tc with
  | None => panic
  | Some b =>
    do input <- bind_input w c t (bt_input b) (bs_id s) tc;
    do val <- bind_validation w c (bs_validator s) (bs_id s) (bs_name s) tc input;
    do correct <- bind_output w c t (bt_output b) (bs_id s) tc input val;
    mforeach (evaluate w c t (bs_id s) tc input val correct) sols ;!
    ret (<[tc := input]> acc)
  end.
Definition build_subtask (w : world) (c : build_config) (t : btask) (sols : list source) (acc : gmap nat file_uuid)
    (s : bsubtask) : M (gmap nat file_uuid) :=
  mfold (build_testcase w c t sols s) (bs_owned s) acc.

(** ioi/mod.rs:371-375: an input file was recorded for each generated testcase (the map of testcases is not changed
    otherwise, and [get_mut(..).unwrap()] cannot fail: the testcase was found before) *)
(** ioi/mod.rs:377-394: the validators of the other subtasks that use a testcase *)
Definition validate_other (w : world) (c : build_config) (t : btask) (inputs : gmap nat file_uuid) (s : bsubtask) (tc : nat) : M unit :=
  if decide (tc ∈ bs_owned s) then ret tt
  else match bk_testcases t !! tc, inputs !! tc with
       | Some _, Some input => bind_validation w c (bs_validator s) (bs_id s) (bs_name s) tc input ;! ret tt
       | _, _ => panic
       end.

(** ioi/mod.rs:263-402 [build_dag] *)
Definition build_dag (w : world) (c : build_config) (t : btask) (sols : list source) : M unit :=
  prepare_task w c t ;!
  do inputs <- mfold (build_subtask w c t sols) (bk_subtasks t) ∅;
  mforeach (fun s => mforeach (validate_other w c t inputs s) (bs_testcases s)) (bk_subtasks t).

(** The finished DAG and what the client asks to be told about (dag.rs:222-270, executor.rs:33-43). *)
Definition bstate0 (n : positive) : bstate := BState n [] [] ∅ [] [].
Definition dag_of (c : build_config) (s : bstate) : dag := Dag (b_provided s) (b_groups s) (bc_dag c).
Definition watch_of (s : bstate) : watch_set := WatchSet (b_roles s).*1 (b_written s).*1 [].
