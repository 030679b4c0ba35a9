(** * AttDagModel: the executions that check the sample files of the attachments

    Models task-maker-format/src/ioi/sanity_checks/att.rs [AttSampleFilesValid::pre_hook] (lines 199-327), on top of
    [BuildModel].  ioi/mod.rs:403-405: the hook runs when the DAG of the task is finished.

    Simplifications:
    - The pairs of [get_sample_files] are given (they are those of [AttModel]), as paths.
    - [validator.generate(None)] is given: the validator of the task.
    - An execution is bound, with [on_execution_done], to the callback that reports its failure.  This is recorded where
      [BuildModel] records the messages an execution is bound to, with the constructors that carry a path: see
      [said_invalid], [said_solution] and [said_score]. *)
From Verif Require Export BuildModel.
From Coq Require Import Ascii String.
From stdpp Require Import base.

(** The callbacks, with the path their diagnostic names. *)
(** att.rs:232-247: "Sample input file .. is not valid" *)
Definition said_invalid (input : string) : role := RTerryValidation input.
(** att.rs:280-295: "Solution failed on sample input file .." *)
Definition said_solution (input : string) : role := RTerrySolution input.
(** att.rs:310-319: "Sample output file .. scores .." *)
Definition said_score (output : string) : role := RTerryChecker output.

(** att.rs:216-249, with dag/input_validator.rs:35-64 [validate] *)
Definition att_validate (w : world) (c : build_config) (v : input_validator) (name : string) (input : file_uuid) : M (option file_uuid) :=
  match v with
  | VAssume => ret None
  | VCustom s args =>
    do e <- execute w c s args;
    let e := add_env "TM_TESTCASE" (pretty 0) (add_env "TM_SUBTASK" (pretty 0)
               (set_tag "generation" (gen_priority - Z.of_nat 0) (add_input input "tm_validation_file" false e))) in
    let e := add_env "TM_SUBTASK_NAME" "att" e in
    let e := set_limits (allow_multiprocess (e_limits e)) e in
    do fe <- stdout_of e;
    do e <- capture_stderr 1024 (snd fe);
    bind_role e (said_invalid name) ;!
    add_execution c e ;!
    ret (Some (fst fe))
  end.

(** att.rs:260-297, with dag/output_generator.rs:33-77 [generate] *)
Definition att_solve (w : world) (c : build_config) (t : btask) (g : output_generator) (name : string) (input : file_uuid)
    (val : option file_uuid) : M file_uuid :=
  match g with
  | ONotAvailable => do f <- new_id; provide_key f (bc_empty c) ;! ret f
  | OStatic p => if w_exists w p then provide_new w p else err
  | OCustom s args =>
    do e <- execute w c s args;
    do fe <- bind_exec_io t input val (set_tag "generation" (gen_priority - Z.of_nat 0) e);
    do e <- capture_stderr 1024 (snd fe);
    bind_role e (said_solution name) ;!
    add_execution c e ;!
    ret (fst fe)
  end.

(** att.rs:299-323, with dag/checker.rs:36-141 [check] *)
Definition att_check (w : world) (c : build_config) (ck : checker) (name : string) (input correct test : file_uuid) : M unit :=
  do e <- (match ck with
    | CWhiteDiff =>
      do u <- new_id;
      ret (set_tag "checking" (eval_priority - Z.of_nat 0)
        (add_input test "test" false (add_input correct "correct" false
          (set_args ["--brief"; "--speed-large-files"; "--ignore-blank-lines"; "--ignore-space-change"; "correct"; "test"]
            (exec_new u (System "diff"))))))
    | CCustom s =>
      do e <- execute w c s ["input"; "correct_output"; "test_output"];
      let e := add_input test "test_output" false (add_input correct "correct_output" false (add_input input "input" false e)) in
      do e <- capture_stdout 128 (set_tag "checking" (eval_priority - Z.of_nat 0) e);
      do e <- capture_stderr stderr_length e;
      ret (set_limits (allow_multiprocess (e_limits e)) e)
    end);
  bind_role e (said_score name) ;!
  add_execution c e.

(** att.rs:208-324: one pair of files; [official]: the official solution, if any *)
Definition att_sample (w : world) (c : build_config) (t : btask) (v : input_validator) (official : option output_generator)
    (ck : checker) (p : string * string) : M unit :=
  do input <- provide_new w (fst p);
  do val <- att_validate w c v (fst p) input;
  match official with
  | None => ret tt
  | Some g =>
    do output <- provide_new w (snd p);
    do correct <- att_solve w c t g (fst p) input val;
    att_check w c ck (snd p) input correct output
  end.

(** att.rs:199-327 [pre_hook] *)
Definition att_hook (w : world) (c : build_config) (t : btask) (v : input_validator) (official : option output_generator)
    (samples : list (string * string)) : M unit :=
  match bk_type t with
  | TBatch ck => mforeach (att_sample w c t v official ck) samples
  | _ => ret tt
  end.

(** ioi/mod.rs:263-405 *)
Definition build_and_check (w : world) (c : build_config) (t : btask) (sols : list source) (v : input_validator)
    (official : option output_generator) (samples : list (string * string)) : M unit :=
  build_dag w c t sols ;! att_hook w c t v official samples.
