(** * DagModel: the data types of task-maker-dag

    Models /repo/task-maker-dag/src/{dag.rs,execution.rs,execution_group.rs,file.rs}.

    UUIDs are [positive].  A Rust [HashMap] whose iteration order can be
    observed is an association list in iteration order (the predicate
    [NoDup (map fst l)] says it is a map); all theorems quantify over every such
    list, hence over every iteration order.
    f64 durations are exact integers (any common unit): no rounding, no NaN.
    u64/u32 quantities are [Z]. *)
From stdpp Require Export base tactics list gmap strings sorting.
From Coq Require Export ZArith Lia.

Notation file_uuid := positive (only parsing).
Notation exec_uuid := positive (only parsing).
Notation group_uuid := positive (only parsing).
Notation fifo_uuid := positive (only parsing).
Notation worker_uuid := positive (only parsing).
Notation client_uuid := positive (only parsing).
(** A [FileStoreKey] (store/src/lib.rs:62-65): the blake3 hash of a file. *)
Notation store_key := positive (only parsing).
Notation path := string (only parsing).

(** execution.rs:60-68 *)
Inductive command := System (p : path) | Local (p : path).
Global Instance command_eq_dec : EqDecision command.
Proof. solve_decision. Defined.

(** execution.rs:71-78 *)
Record exec_input := ExecInput { in_file : file_uuid; in_executable : bool }.

(** execution.rs:186-218 *)
Record limits := Limits {
  l_cpu_time : option Z;
  l_sys_time : option Z;
  l_wall_time : option Z;
  l_memory : option Z;
  l_allow_multiprocess : bool;
  l_nofile : option Z;
  l_fsize : option Z;
  l_memlock : option Z;
  l_stack : option Z;
  l_read_only : bool;
  l_mount_tmpfs : bool;
  l_mount_proc : bool;
  l_extra_readable_dirs : list path
}.
Global Instance limits_eq_dec : EqDecision limits.
Proof. solve_decision. Defined.

(** execution.rs:220-239; the message of [InternalError] and the signal name are strings. *)
Inductive status :=
  | Success
  | ReturnCode (c : Z)
  | Signal (s : Z) (name : string)
  | TimeLimitExceeded
  | SysTimeLimitExceeded
  | WallTimeLimitExceeded
  | MemoryLimitExceeded
  | InternalError (msg : string).
Global Instance status_eq_dec : EqDecision status.
Proof. solve_decision. Defined.

(** execution.rs:401-410 *)
Definition is_success (s : status) : bool := match s with Success => true | _ => false end.
Definition is_internal_error (s : status) : bool :=
  match s with InternalError _ => true | _ => false end.

(** execution.rs:241-252 *)
Record resources := Resources { r_cpu_time : Z; r_sys_time : Z; r_wall_time : Z; r_memory : Z }.

(** execution.rs:254-270; captured streams are byte lists ([N] < 256). *)
Record exec_result := ExecResult {
  res_status : status;
  res_was_killed : bool;
  res_was_cached : bool;
  res_resources : resources;
  res_stdout : option (list N);
  res_stderr : option (list N)
}.

(** dag.rs:12-21; tags are strings. *)
Inductive cache_mode := CacheEverything | CacheNothing | CacheExcept (tags : gset string).

(** dag.rs:23-45.  [keep_sandboxes], [copy_exe], [copy_logs] do not influence any modelled function and are left out. *)
Record dag_config := DagConfig {
  cfg_dry_run : bool;
  cfg_cache_mode : cache_mode;
  cfg_extra_time : Z;
  cfg_extra_memory : Z;
  cfg_priority : Z
}.

(** execution.rs:127-184.  [description] is left out. [File] (file.rs) is its uuid. *)
Record execution := Execution {
  e_uuid : exec_uuid;
  e_command : command;
  e_args : list string;
  e_stdin : option file_uuid;
  e_stdout : option file_uuid;
  e_stderr : option file_uuid;
  e_capture_stdout : option N;
  e_capture_stderr : option N;
  e_inputs : list (path * exec_input);
  e_outputs : list (path * file_uuid);
  e_stdin_redirect : option path;
  e_stdout_redirect : option path;
  e_stderr_redirect : option path;
  e_env : list (string * string);
  e_copy_env : list string;
  e_limits : limits;
  e_config : dag_config;
  e_tag : option string;
  e_priority : Z
}.

(** execution_group.rs:26-38 *)
Record group := Group {
  g_uuid : group_uuid;
  g_execs : list execution;
  g_fifo : list fifo_uuid
}.

(** dag.rs:71-81.  Of a provided file only its uuid and its store key are kept. *)
Record dag := Dag {
  d_provided : list (file_uuid * store_key);
  d_groups : list (group_uuid * group);
  d_config : dag_config
}.

(** The maps of a DAG are maps, and a group is stored under its own uuid:
    what [ExecutionDAG::add_execution(_group)] (dag.rs:152-166) and
    [provide_file/provide_content] (dag.rs:125-150) guarantee. *)
Definition dag_maps_ok (d : dag) : Prop :=
  NoDup (d_provided d).*1 /\ NoDup (d_groups d).*1 /\
  (forall k g, (k, g) ∈ d_groups d -> g_uuid g = k).

(** execution.rs:472-489 [Execution::dependencies] *)
Definition dependencies (e : execution) : list file_uuid :=
  option_list (e_stdin e) ++ map (fun pi => in_file (snd pi)) (e_inputs e).

(** execution.rs:491-514 [Execution::outputs] *)
Definition outputs (e : execution) : list file_uuid :=
  option_list (e_stdout e) ++ option_list (e_stderr e) ++ map snd (e_outputs e).

(** The files read / written by a group: the flat_map used all over scheduler.rs. *)
Definition group_deps (g : group) : list file_uuid := g_execs g ≫= dependencies.
Definition group_outputs (g : group) : list file_uuid := g_execs g ≫= outputs.

(** execution_group.rs:76-84 [ExecutionGroup::priority] *)
Definition group_priority (g : group) : Z :=
  match map e_priority (g_execs g) with
  | [] => 0
  | p :: ps => fold_left Z.max ps p
  end.

(** Lookup in a map given as an association list in iteration order. *)
Fixpoint alookup {A} (k : positive) (l : list (positive * A)) : option A :=
  match l with
  | [] => None
  | (k', v) :: l => if decide (k = k') then Some v else alookup k l
  end.

(** execution.rs:770-807 [Execution::status].  [exceeds l u] is the test
    [if let Some(limit) = l { if u > limit {..} }]. *)
Definition exceeds (lim : option Z) (used : Z) : bool :=
  match lim with Some l => bool_decide (l < used)%Z | None => false end.
Definition exec_status (e : execution) (exit_status : Z) (signal : option (Z * string))
    (r : resources) : status :=
  if exceeds (l_cpu_time (e_limits e)) (r_cpu_time r) then TimeLimitExceeded
  else if exceeds (l_sys_time (e_limits e)) (r_sys_time r) then SysTimeLimitExceeded
  else if exceeds (l_wall_time (e_limits e)) (r_wall_time r) then WallTimeLimitExceeded
  else if exceeds (l_memory (e_limits e)) (r_memory r) then MemoryLimitExceeded
  else match signal with
       | Some (s, name) => Signal s name
       | None => if bool_decide (exit_status <> 0)%Z then ReturnCode exit_status else Success
       end.
