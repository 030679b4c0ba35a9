(** * TerrySpec: what the DAG of a Terry task must contain *)
From Verif Require Import TerryModel BuildSpec.
From Coq Require Import Ascii String.
From stdpp Require Import base list.
Local Open Scope nat_scope.

(** The name of the official solution in the sandboxes: that of the file its executable is written to *)
Definition official_names (t : terry_task) : list string :=
  match tt_official t with
  | Some o => match sf_write_to o with Some p => match name_of p with Some n => [n] | None => [] end | None => [] end
  | None => []
  end.

Section solution.
  Context (n0 : positive) (w : world) (c : build_config) (t : terry_task) (s : bstate).

  (** The executable of the official solution is in the sandbox with files [i], unless its name is one of [others] *)
  Definition official_in (others : list string) (i : list (path * exec_input)) : Prop :=
    forall o, tt_official t = Some o -> exists p n exe, sf_write_to o = Some p /\ name_of p = Some n /\ exe_of n0 w c s o exe /\
      (n ∉ others -> aget n i = Some (ExecInput exe true)).
  (** The input and the output of a solution are copied to bin/io/ if the executables are *)
  Definition io_copied (f : file_uuid) (sol : source) (ext : string) : Prop :=
    cfg_dry_run (bc_dag c) = false -> bc_copy_exe c = true -> tt_path t <> "" ->
    aget f (b_written s) = Some (tt_path t +:+ "/bin/io/" +:+ sol_name sol +:+ ext, false).

  Definition t_generation_ok (sol : source) (seed : N) (fi : file_uuid) : Prop :=
    io_copied fi sol ".in" /\
    exists e, has_role c s (RTerryGeneration (sf_path sol) seed) e /\
      runs n0 w c s (tt_generator t) [pretty seed; "0"] (official_names t) e /\ official_in [] (e_inputs e) /\
      e_stdin e = None /\ e_stdin_redirect e = None /\ e_stdout e = Some fi /\ e_stdout_redirect e = None /\ e_env e = [] /\
      e_capture_stderr e = Some 10240%N /\ e_tag e = Some "generation" /\
      e_limits e = allow_multiprocess (sf_limits (tt_generator t) default_limits).

  Definition t_validation_ok (sol : source) (fi : file_uuid) (val : option file_uuid) : Prop :=
    match tt_validator t with
    | None => val = None
    | Some v => exists e fv, val = Some fv /\ has_role c s (RTerryValidation (sf_path sol)) e /\
        runs n0 w c s v [] (official_names t) e /\ official_in [] (e_inputs e) /\
        e_stdin e = Some fi /\ e_stdin_redirect e = None /\ e_stdout e = Some fv /\ e_stdout_redirect e = None /\ e_env e = [] /\
        e_capture_stderr e = Some 10240%N /\ e_tag e = Some "generation" /\
        e_limits e = allow_multiprocess (sf_limits v default_limits)
    end.

  (** The solution of a contestant: no official solution in its sandbox ([boxed]: nothing but its own files and,
      to start after the validation, what the validator printed); 20 seconds of cpu time and 25 of wall time. *)
  Definition t_solution_ok (sol : source) (fi : file_uuid) (val : option file_uuid) (fo : file_uuid) : Prop :=
    io_copied fo sol ".out" /\
    exists e, has_role c s (RTerrySolution (sf_path sol)) e /\
      runs n0 w c s sol [] (match val with Some _ => ["wait_for_validation"] | None => [] end) e /\
      (forall fv, val = Some fv -> aget "wait_for_validation" (e_inputs e) = Some (ExecInput fv false)) /\
      e_stdin e = Some fi /\ e_stdin_redirect e = None /\ e_stdout e = Some fo /\ e_stdout_redirect e = None /\ e_env e = [] /\
      e_capture_stderr e = Some 10240%N /\ e_tag e = Some "evaluation" /\
      l_cpu_time (e_limits e) = Some (2 * 20 * 1000)%Z /\ l_wall_time (e_limits e) = Some (2 * 25 * 1000)%Z /\
      set_times None None (e_limits e) = set_times None None (sf_limits sol default_limits).

  (** The checker: its limits are those of the code, not those of its language *)
  Definition t_checker_ok (sol : source) (fi fo : file_uuid) : Prop :=
    exists e, has_role c s (RTerryChecker (sf_path sol)) e /\
      runs n0 w c s (tt_checker t) ["input.txt"; "output.txt"] (["output.txt"; "input.txt"] ++ official_names t) e /\
      official_in ["input.txt"; "output.txt"] (e_inputs e) /\
      aget "input.txt" (e_inputs e) = Some (ExecInput fi false) /\ aget "output.txt" (e_inputs e) = Some (ExecInput fo false) /\
      e_stdin e = None /\ e_stdin_redirect e = None /\ e_stdout_redirect e = None /\ e_env e = [] /\
      e_capture_stdout e = Some 1048576%N /\ e_capture_stderr e = Some 10240%N /\
      l_cpu_time (e_limits e) = None /\ l_sys_time (e_limits e) = None /\ l_wall_time (e_limits e) = None /\
      l_memory (e_limits e) = None /\ l_allow_multiprocess (e_limits e) = true /\ l_read_only (e_limits e) = false /\
      l_nofile (e_limits e) = None /\ l_fsize (e_limits e) = None /\ l_memlock (e_limits e) = None /\ l_stack (e_limits e) = None /\
      l_mount_tmpfs (e_limits e) = true /\ l_mount_proc (e_limits e) = true /\ l_extra_readable_dirs (e_limits e) = [].

  (** One solution, with its seed: its own input is generated, validated, solved, and the answer is checked *)
  Definition terry_solution_ok (sol : source) (seed : N) : Prop :=
    exists fi val fo, t_generation_ok sol seed fi /\ t_validation_ok sol fi val /\ t_solution_ok sol fi val fo /\ t_checker_ok sol fi fo.
End solution.

(** The messages the executions are bound to *)
Definition terry_solution_roles (t : terry_task) (sol : source) (seed : N) : list role :=
  [RTerryGeneration (sf_path sol) seed] ++
  match tt_validator t with Some _ => [RTerryValidation (sf_path sol)] | None => [] end ++
  [RTerrySolution (sf_path sol); RTerryChecker (sf_path sol)].
Definition terry_roles (conf : option N) (t : terry_task) (sols : list (source * N)) : list role :=
  sols ≫= fun p => terry_solution_roles t (fst p) (default (snd p) conf).

(** The source files *)
Definition manager_sources (t : terry_task) : list source :=
  [tt_generator t; tt_checker t] ++ option_list (tt_validator t) ++ option_list (tt_official t).
Definition terry_sources (t : terry_task) (sols : list (source * N)) : list source := manager_sources t ++ sols.*1.

(** What is asked of a task *)
Record terry_ok (n0 : positive) (t : terry_task) (sols : list (source * N)) : Prop := {
  (* a handle belongs to one source file *)
  to_handles : forall s1 s2, s1 ∈ terry_sources t sols -> s2 ∈ terry_sources t sols -> sf_id s1 = sf_id s2 -> s1 = s2;
  (* the identifiers of the graders (there are none in Terry) were made before, one for each grader *)
  to_graders : forall s gf gd, s ∈ terry_sources t sols -> sf_grader s = Some (gf, gd) -> (gf < n0)%positive;
  to_grader : forall s1 s2 gf gd1 gd2, s1 ∈ terry_sources t sols -> s2 ∈ terry_sources t sols ->
      sf_grader s1 = Some (gf, gd1) -> sf_grader s2 = Some (gf, gd2) -> dp_local gd1 = dp_local gd2
}.
(** The files of a task are there; the executable of the official solution has a place (format/mod.rs:66-86: always) *)
Record terry_there (w : world) (t : terry_task) (sols : list (source * N)) : Prop := {
  tf_exists : forall p, w_exists w p = true -> is_Some (w_key w p);
  tf_sources : forall src, src ∈ terry_sources t sols -> source_there w src;
  tf_official : forall o, tt_official t = Some o -> exists p, sf_write_to o = Some p /\ is_Some (name_of p)
}.
