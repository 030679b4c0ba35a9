(** * TerryModel: the execution DAG of a Terry task

    Models task-maker-format/src/terry: dag/mod.rs and mod.rs [TerryTask::build_dag] (lines 166-230), over the builder
    methods and the source files of [BuildModel].

    Simplifications: those of [BuildModel]; the sanity checks (FuzzChecker adds executions) and the callback that parses
    the standard output of the checker ([TerryUiModel]) are left out; [EvaluationConfig::find_solutions] is a parameter:
    the list of the solutions. *)
From Verif Require Export LangModel.
From Coq Require Import Ascii String.
From stdpp Require Import base list.
Local Open Scope nat_scope.

(** mod.rs:36-66 [TerryTask] *)
Record terry_task := TerryTask {
  tt_path : string; tt_generator : source; tt_validator : option source; tt_checker : source; tt_official : option source }.

(** task-maker-lang/src/source_file.rs:205-212 [executable] *)
Definition executable (w : world) (c : build_config) (s : source) : M file_uuid :=
  prepare w c s ;!
  do h <- exe_handle s;
  match h with Some f => ret f | None => panic end.

(** [Path::file_name] of a path as a string *)
Definition name_of (p : string) : option string := file_name (fpath_of (chars p)).
(** source_file.rs:224-230 [name]; the panic (a source file always has a file name) is the empty string *)
Definition sol_name (s : source) : string := default "" (name_of (sf_path s)).

(** dag/mod.rs:290-307 [include_official_solution] *)
Definition include_official (w : world) (c : build_config) (o : option source) (e : execution) : M execution :=
  match o with
  | None => ret e
  | Some s =>
    do f <- executable w c s;
    match sf_write_to s with
    | None => err
    | Some p => match name_of p with None => err | Some n => ret (add_input f n true e) end
    end
  end.

(** dag/mod.rs:10-16 *)
Definition outcome_limit : N := 1048576.
Definition stderr_limit : N := 10240.
(** SOLUTION_TIME_LIMIT = 20 s, in half milliseconds; 1.25 times *)
Definition solution_cpu : Z := 40000.
Definition solution_wall : Z := 50000.
(** execution.rs:275-291 *)
Definition unrestricted : limits := Limits None None None None true None None None None false true true [].

(** dag/mod.rs:52-67 [InputGenerator::generate] *)
Definition t_generate (w : world) (c : build_config) (t : terry_task) (seed : N) : M (file_uuid * execution) :=
  do e <- execute w c (tt_generator t) [pretty seed; "0"];
  do e <- include_official w c (tt_official t) e;
  stdout_of (set_tag "generation" 0 (set_limits (allow_multiprocess (e_limits e)) e)).

(** dag/mod.rs:87-94, 198-205: [eval.task_root.join(format!("bin/io/{}.in", solution.name()))] *)
Definition io_path (t : terry_task) (sol : source) (ext : string) : string :=
  path_join (tt_path t) ("bin/io/" +:+ sol_name sol +:+ ext).
Definition copy_io (c : build_config) (t : terry_task) (f : file_uuid) (sol : source) (ext : string) : M unit :=
  if bc_copy_exe c then write_file_to c f (io_path t sol ext) false else ret tt.

(** dag/mod.rs:70-110 [generate_and_bind]; the callbacks are bound before the capture of the standard error, which does
    not change the identifier of the execution *)
Definition t_generate_and_bind (w : world) (c : build_config) (t : terry_task) (sol : source) (seed : N) : M file_uuid :=
  do fe <- t_generate w c t seed;
  copy_io c t (fst fe) sol ".in" ;!
  do e <- capture_stderr stderr_limit (snd fe);
  bind_role e (RTerryGeneration (sf_path sol) seed) ;!
  add_execution c e ;!
  ret (fst fe).

(** dag/mod.rs:121-134 [InputValidator::validate], 137-160 [validate_and_bind] *)
Definition t_validate_and_bind (w : world) (c : build_config) (t : terry_task) (v : source) (sol : source)
    (input : file_uuid) : M file_uuid :=
  do e <- execute w c v [];
  do e <- include_official w c (tt_official t) e;
  do fe <- stdout_of (set_tag "generation" 0 (set_stdin input (set_limits (allow_multiprocess (e_limits e)) e)));
  do e <- capture_stderr stderr_limit (snd fe);
  bind_role e (RTerryValidation (sf_path sol)) ;!
  add_execution c e ;!
  ret (fst fe).

(** dag/mod.rs:167-188 [Solution::solve], 191-216 [solve_and_bind] *)
Definition t_solve_and_bind (w : world) (c : build_config) (t : terry_task) (sol : source) (input : file_uuid)
    (val : option file_uuid) : M file_uuid :=
  do e <- execute w c sol [];
  let e := set_tag "evaluation" 0 (set_stdin input e) in
  let e := match val with Some f => add_input f "wait_for_validation" false e | None => e end in
  do fe <- stdout_of e;
  let e := set_limits (set_times (Some solution_cpu) (Some solution_wall) (e_limits (snd fe))) (snd fe) in
  copy_io c t (fst fe) sol ".out" ;!
  do e <- capture_stderr stderr_limit e;
  bind_role e (RTerrySolution (sf_path sol)) ;!
  add_execution c e ;!
  ret (fst fe).

(** dag/mod.rs:226-253 [Checker::check], 256-286 [check_and_bind] *)
Definition t_check_and_bind (w : world) (c : build_config) (t : terry_task) (sol : source) (input output : file_uuid) : M unit :=
  do e <- execute w c (tt_checker t) ["input.txt"; "output.txt"];
  do e <- include_official w c (tt_official t) e;
  let e := add_input output "output.txt" false (add_input input "input.txt" false (set_limits unrestricted e)) in
  do e <- capture_stdout outcome_limit e;
  do e <- capture_stderr stderr_limit e;
  bind_role e (RTerryChecker (sf_path sol)) ;!
  add_execution c e.

(** mod.rs:181-187: the seed of the command line or a random one *)
Definition seed_of (conf : option N) (random : N) : N := match conf with Some s => s | None => random end.

(** mod.rs:179-227: one solution, with the random number that is drawn for it *)
Definition t_solution (w : world) (c : build_config) (conf : option N) (t : terry_task) (p : source * N) : M unit :=
  do input <- t_generate_and_bind w c t (fst p) (seed_of conf (snd p));
  do val <- (match tt_validator t with
             | Some v => do f <- t_validate_and_bind w c t v (fst p) input; ret (Some f)
             | None => ret None
             end);
  do output <- t_solve_and_bind w c t (fst p) input val;
  t_check_and_bind w c t (fst p) input output.

(** mod.rs:166-230 [build_dag] *)
Definition terry_build (w : world) (c : build_config) (conf : option N) (t : terry_task) (sols : list (source * N)) : M unit :=
  mforeach (t_solution w c conf t) sols.
