(** * OptModel: src/opt.rs, src/local.rs, src/context.rs (the command task-maker, from its options to the evaluation)

    Definitions only.

    - What the command does to its environment is a trace of events; [ok tr e] tells whether the operation succeeds.  The
      operations themselves are modelled elsewhere: the search of the task (LocateModel.v), its parsing (TaskModel.v), the
      DAG (BuildModel.v, TerryModel.v), its picture (DotModel.v), the store and the cache (StoreModel.v, RestartModel.v),
      the connection (ConnModel.v), the evaluation (ClientModel.v, LifeModel.v).
    - Not modelled: the parsing of the command line (clap), the log messages, what is printed of an error.
    - Paths are lists of components. *)
From Verif Require Export MiscModel FloatModel.

(** ui/mod.rs:347-358 [UIType] *)
Inductive ui_type := UIPrint | UIRaw | UICurses | UIJson | UISilent.
Global Instance ui_type_eq_dec : EqDecision ui_type.
Proof. solve_decision. Defined.
(** std: [to_ascii_lowercase] *)
Definition ascii_lower (c : Ascii.ascii) : Ascii.ascii :=
  let n := Ascii.nat_of_ascii c in
  if (65 <=? n) && (n <=? 90) then Ascii.ascii_of_nat (n + 32) else c.
Fixpoint string_lower (s : string) : string :=
  match s with EmptyString => EmptyString | String c s => String (ascii_lower c) (string_lower s) end.
(** ui/mod.rs:360-373 [from_str]; [None]: an error *)
Definition ui_of (s : string) : option ui_type :=
  let l := string_lower s in
  if decide (l = "print") then Some UIPrint
  else if decide (l = "raw") then Some UIRaw
  else if decide (l = "curses") then Some UICurses
  else if decide (l = "json") then Some UIJson
  else if decide (l = "silent") then Some UISilent
  else None.

(** opt.rs:83-138 [ExecutionOpt], 140-153 [StorageOpt], 14-57 [Opt] (with the flattened [FilterOpt], [TerryOpt],
    [BookletOpt], [UIOpt], [LoggerOpt]; the options of [FindTaskOpt] are [o_task_dir], [o_max_depth]) *)
Notation fpath := (list string).
Record exec_opt := ExecOpt {
  x_keep_sandboxes : bool; x_dry_run : bool; x_no_cache : option (option string);
  x_extra_time : option f64; x_extra_memory : option N;
  x_copy_exe : bool; x_copy_logs : bool; x_copy_dag : bool;
  x_num_cores : option N; x_evaluate_on : option string; x_name : option string; x_priority : Z }.
Record storage_opt := StorageOpt { t_store_dir : option fpath; t_max_cache : N; t_min_cache : N }.
Record opt := Opt {
  o_filter : list string; o_solution : list string;
  o_task_dir : option string; o_max_depth : N;
  o_ui : ui_type; o_exclusive : bool; o_seed : option N; o_clean : bool;
  o_booklet_solutions : bool; o_no_statement : bool; o_skip_checks : list string;
  o_storage : storage_opt; o_exec : exec_opt; o_verbose : N }.

(** format/src/lib.rs:84-104 [EvaluationConfig] *)
Record eval_config := EvalConfig {
  ec_filter : list string; ec_booklet_solutions : bool; ec_no_statement : bool; ec_solutions : list string;
  ec_disabled : list string; ec_seed : option N; ec_dry_run : bool }.
(** opt.rs:222-233 [to_config] *)
Definition to_config (o : opt) : eval_config :=
  EvalConfig (o_filter o) (o_booklet_solutions o) (o_no_statement o) (o_solution o) (o_skip_checks o) (o_seed o)
    (x_dry_run (o_exec o)).

(** opt.rs:295-297 [should_diable_curses], 241-256 [disable_if_needed]: the user interface that is used *)
Definition used_ui (o : opt) : ui_type :=
  if (0 <? o_verbose o)%N then match o_ui o with UICurses => UIPrint | u => u end else o_ui o.
(** opt.rs:277-293 [enable_log]: RUST_LOG and whether RUST_BACKTRACE is set *)
Definition log_level (v : N) : string :=
  if (v =? 0)%N then "warn,tabox=warn" else if (v =? 1)%N then "info,tabox=info" else if (v =? 2)%N then "debug,tabox=debug"
  else "trace,tabox=trace".

(** The machine: the cache directory of the user, the temporary directory, the name of the user and of the host, the
    number of cores, whether the build has overflow checks. *)
Record machine := Machine {
  mc_cache_dir : option fpath; mc_temp_dir : fpath; mc_user : string; mc_host : option string; mc_cores : N; mc_checked : bool }.
(** opt.rs:261-274 [store_dir] *)
Definition store_dir (m : machine) (s : storage_opt) : fpath :=
  match t_store_dir s with
  | Some d => d
  | None => match mc_cache_dir m with Some d => d | None => mc_temp_dir m ++ ["task-maker"] end
  end.

(** dag.rs:23-45 [ExecutionDAGConfig] *)
Record run_config := RunConfig {
  rc_keep_sandboxes : bool; rc_dry_run : bool; rc_cache_mode : cache_mode; rc_extra_time : f64; rc_extra_memory : N;
  rc_copy_exe : bool; rc_copy_logs : bool; rc_priority : Z }.
(** dag.rs:336-349 [ExecutionDAGConfig::new]: 0.5 s, 8 MiB *)
Definition half : f64 := S754_finite false 4503599627370496 (-53).
Definition default_extra_memory : N := 8 * 1024.

(** What the command does. *)
Inductive oevent :=
  | OFind (c : eval_config) (dir : option string) (depth : N)  (* search and parse the task *)
  | OClean                                                    (* remove the generated files of the task *)
  | OBuild (rc : run_config) (c : eval_config)                (* build the DAG *)
  | OMkdir (p : fpath)                                        (* inside the task directory *)
  | OWrite (p : fpath)                                        (* inside the task directory *)
  | OStore (dir : fpath) (max min : N)
  | OConnect (address : string) (port : N)
  | OWelcome (name : string)                                  (* ok: sent, answered and accepted *)
  | OCache (dir : fpath)
  | OWorkers (n : N) (sandboxes : fpath)
  | OUi (u : ui_type)
  | ORun.                                                     (* evaluate, and the checks after the evaluation *)

(** A computation: the trace grows; a value, an error or a panic. *)
Inductive outcome (A : Type) := Fine (a : A) | Error | Panic.
Arguments Fine {A} _. Arguments Error {A}. Arguments Panic {A}.
Definition om (A : Type) : Type := list oevent -> list oevent * outcome A.
Definition oret {A} (a : A) : om A := fun tr => (tr, Fine a).
Definition obind {A B} (x : om A) (f : A -> om B) : om B :=
  fun tr => match x tr with (tr, Fine a) => f a tr | (tr, Error) => (tr, Error) | (tr, Panic) => (tr, Panic) end.
Definition oerror {A} : om A := fun tr => (tr, Error).
Definition opanic {A} : om A := fun tr => (tr, Panic).
Notation "x <== m ; k" := (obind m (fun x => k)) (at level 100, m at next level, right associativity).

Section run.
  Context (ok : list oevent -> oevent -> bool) (m : machine).
  Definition act (e : oevent) : om unit := fun tr => (tr ++ [e], if ok tr e then Fine tt else Error).

  (** context.rs:80-104 and dag.rs:351-398: the configuration of the DAG; dag.rs:371 [assert!(extra_time >= 0.0)] *)
  Definition config_of_opt (x : exec_opt) : om run_config :=
    match cache_mode_of (x_no_cache x) valid_tags with
    | None => oerror
    | Some mode =>
      t <== match x_extra_time x with
            | None => oret half
            | Some t => if f64_lt t f64_zero then oerror
                        else if f64_lt f64_zero t || f64_eq f64_zero t then oret t else opanic
            end;
      oret (RunConfig (x_keep_sandboxes x) (x_dry_run x) mode t (default default_extra_memory (x_extra_memory x))
              (x_copy_exe x) (x_copy_logs x) (x_priority x))
    end.
  (** context.rs:70-125 [RuntimeContext::new] with the closure of local.rs:55-59 *)
  Definition new_context (x : exec_opt) (c : eval_config) : om unit :=
    rc <== config_of_opt x;
    _ <== act (OBuild rc c);
    if x_copy_dag x then (_ <== act (OMkdir ["bin"]); act (OWrite ["bin"; "DAG.dot"])) else oret tt.
  (** u64 multiplication by 1024 * 1024 (context.rs:142-143) *)
  Definition mebibytes (n : N) : om N :=
    let v := (n * 1024 * 1024)%N in
    if (v <? 2 ^ 64)%N then oret v else if mc_checked m then opanic else oret (v mod 2 ^ 64)%N.
  (** context.rs:152-158: the name of the client; [hostname().unwrap()] *)
  Definition client_name (x : exec_opt) : om string :=
    match x_name x with
    | Some n => oret n
    | None => match mc_host m with Some h => oret (mc_user m +:+ "@" +:+ h) | None => opanic end
    end.
  (** context.rs:132-206 [connect_executor] *)
  Definition connect_executor (x : exec_opt) (s : storage_opt) : om unit :=
    let dir := store_dir m s in
    mx <== mebibytes (t_max_cache s);
    mn <== mebibytes (t_min_cache s);
    _ <== act (OStore (dir ++ ["store"]) mx mn);
    match x_evaluate_on x with
    | Some address =>
      _ <== act (OConnect address 27182);
      name <== client_name x;
      act (OWelcome name)
    | None =>
      _ <== act (OCache (dir ++ ["cache"]));
      act (OWorkers (default (mc_cores m) (x_num_cores x)) (dir ++ ["sandboxes"]))
    end.

  (** local.rs:9-15 [Evaluation] *)
  Inductive evaluation := EDone | ECleaned.
  (** local.rs:34-66 [run_evaluation], with main.rs:194-198 (the interface is settled before the run) *)
  Definition run_evaluation (o : opt) : om evaluation :=
    if o_exclusive o then oerror
    else
      let c := to_config o in
      _ <== act (OFind c (o_task_dir o) (o_max_depth o));
      if o_clean o then (_ <== act OClean; oret ECleaned)
      else
        _ <== new_context (o_exec o) c;
        _ <== connect_executor (o_exec o) (o_storage o);
        _ <== act (OUi (used_ui o));
        _ <== act ORun;
        oret EDone.
  (** The whole command: what was done and the result.  error.rs:31-40 [nice_unwrap], std: the code with which it exits *)
  Definition task_maker (o : opt) : list oevent * outcome evaluation := run_evaluation o [].
  Definition exit_code (r : outcome evaluation) : N := match r with Fine _ => 0 | Error => 1 | Panic => 101 end.
End run.
