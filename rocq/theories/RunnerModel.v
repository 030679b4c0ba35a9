(** * RunnerModel: the process that runs the sandbox (src/sandbox.rs, task-maker-exec/src/sandbox.rs [run]/[kill],
    find_tools.rs, worker.rs [check_sandbox_is_supported])

    Definitions only.

    - tabox itself, JSON and the text of nested errors are parameters; an error is the list of its contexts, the
      outermost first (anyhow), and [to_string] shows only the outermost one.
    - Times of tabox are the integers of [DagModel.resources]; its memory is in bytes. *)
From Verif Require Export WorkerModel.
From Coq Require Export Ascii.

(** ** What tabox returns (tabox::result) *)
Inductive tb_status := TbExitCode (c : Z) | TbSignal (s : Z) (name : option string) | TbKilled.
Record tb_result := TbResult { tb_stat : tb_status; tb_user : Z; tb_sys : Z; tb_wall : Z; tb_memory : Z }.
(** What the creation of the sandbox, and the wait for it, return. *)
Inductive tb_outcome := TbCreateFails (e : string) | TbWaitFails (e : string) | TbDone (r : tb_result).

(** sandbox.rs:79-86 [RawSandboxResult] *)
Inductive raw := RawSuccess (r : tb_result) | RawError (e : string).
Definition error := list string.
(** anyhow: [Error::to_string] *)
Definition to_string (e : error) : string := hd "" e.

(** How a child process ended: [ExitStatus::success], its description, and what it wrote. *)
Record child_end := ChildEnd { ce_success : bool; ce_text : string; ce_stdout : bytes; ce_stderr : bytes }.
(** What the operating system answers to the parent. *)
Record machine := Machine {
  m_spawn : option Z;           (* the pid, if the process can be created *)
  m_stdin : bool;               (* the pipe of its stdin is there *)
  m_write : bool;               (* the configuration is written completely *)
  m_wait : option child_end     (* the wait, if it works *)
}.
(** What the parent does. *)
Inductive pevent := PSpawn (p : Z) | PPublish (p : Z) | PWrite (b : bytes) | PWait.

Section runner.
  Context {conf : Type} (enc_conf : conf -> bytes) (dec_conf : bytes -> option conf).
  Context (enc_raw : raw -> bytes) (dec_raw : bytes -> option raw).
  Context (debug : error -> string) (lossy : bytes -> string).

  (** ** The child *)
  (** src/sandbox.rs:16-22 [run_sandbox] *)
  Definition run_sandbox (tabox : conf -> tb_outcome) (stdin : bytes) : tb_result + error :=
    match dec_conf stdin with
    | None => inr ["Cannot read configuration from stdin"]
    | Some c =>
      match tabox c with
      | TbCreateFails e => inr ["Failed to create sandbox"; e]
      | TbWaitFails e => inr ["Failed to wait sandbox"; e]
      | TbDone r => inl r
      end
    end.
  (** src/sandbox.rs:28-40 [main_sandbox]: what it writes to stdout *)
  Definition main_sandbox (tabox : conf -> tb_outcome) (stdin : bytes) : bytes :=
    match run_sandbox tabox stdin with
    | inl r => enc_raw (RawSuccess r)
    | inr e => enc_raw (RawError ("Error: " ++ debug e))
    end.

  (** ** The parent *)
  Definition newline : string := String "010"%char "".
  (** src/sandbox.rs:67-95 [tools_sandbox_internal].  [config.build()] is a copy.  The stdin pipe is closed by
      [wait_with_output], after the configuration has been written. *)
  Definition tools_sandbox_internal (c : conf) (m : machine) : list pevent * (raw + error) :=
    match m_spawn m with
    | None => ([], inr ["Cannot spawn the sandbox"])
    | Some p =>
      let ev := [PSpawn p; PPublish p] in
      if m_stdin m then
        if m_write m then
          let ev := ev ++ [PWrite (enc_conf c); PWait] in
          match m_wait m with
          | None => (ev, inr ["Failed to wait for the process"])
          | Some ce =>
            if ce_success ce then
              match dec_raw (ce_stdout ce) with
              | None => (ev, inr ["Invalid output from sandbox"])
              | Some r => (ev, inl r)
              end
            else (ev, inr [("Sandbox process failed: " ++ ce_text ce ++ newline ++ lossy (ce_stderr ce))%string])
          end
        else (ev, inr ["Failed to write config to stdin"])
      else (ev, inr ["Failed to open stdin"])
    end.
  (** src/sandbox.rs:57-64 [ToolsSandboxRunner::run] *)
  Definition runner (c : conf) (m : machine) : raw :=
    match (tools_sandbox_internal c m).2 with
    | inl r => r
    | inr e => RawError (to_string e)
    end.

  (** ** The sandbox of an execution *)
  (** sandbox.rs:125-199 [Sandbox::run]: [built] is the result of [build_command] (C65, C66); [keep] whether the
      sandbox is kept, [saved] whether result.txt can be written. *)
  Definition sandbox_run (built : conf + string) (keep saved : bool) (run : conf -> raw) : sandbox_result + error :=
    match built with
    | inr e => inl (SbFailed e)
    | inl c =>
      let raw_result := run c in
      if keep && negb saved then inr ["Failed to write result.txt"]
      else match raw_result with
           | RawError e => inr [("Sandbox failed: " ++ e)%string]
           | RawSuccess res =>
             let r := Resources (tb_user res) (tb_sys res) (tb_wall res) (tb_memory res / 1024) in
             inl (match tb_stat res with
                  | TbExitCode code => SbSuccess code None r false
                  | TbSignal s name => SbSuccess 0 (Some (s, default "unknown" name)) r false
                  | TbKilled => SbSuccess 1 (Some (9%Z, "Killed by sandbox")) r true
                  end)
           end
    end.
  (** worker.rs:402-411: the result of the only execution of a group *)
  Definition execution_result (e : execution) (built : conf + string) (keep saved : bool) (run : conf -> raw)
      (lo : leftovers) : exec_result :=
    let r := match sandbox_run built keep saved run with inl r => r | inr err => SbFailed (to_string err) end in
    compute_execution_result e r lo.

  (** worker.rs:682-708 [check_sandbox_is_supported]: [set_up] is the result of [Sandbox::new]; the command is
      [true].  [None] means that the worker starts. *)
  Definition check_sandbox_is_supported (set_up : option error) (built : conf + string) (run : conf -> raw) : option error :=
    match set_up with
    | Some e => Some e
    | None =>
      match sandbox_run built false true run with
      | inr e => Some e
      | inl (SbFailed e) => Some [("Sandbox failed: " ++ e)%string]
      | inl (SbSuccess exit_status signal _ _) =>
        if bool_decide (exit_status <> 0%Z) then Some ["Sandbox failed: exited with an error"]
        else match signal with
             | Some _ => Some ["Sandbox failed: exited with signal"]
             | None => None
             end
      end
    end.
End runner.

(** ** Killing a sandbox *)
(** The atomic [box_pid] at each time (in milliseconds): 0 until the runner publishes the pid. *)
Definition box_pid (published : option (N * Z)) (t : N) : Z :=
  match published with
  | Some (t0, p) => if bool_decide (t0 <= t)%N then p else 0%Z
  | None => 0%Z
  end.
(** sandbox.rs:212-224: the loop; the pid that was read last and the time *)
Fixpoint wait_pid (cell : N -> Z) (tries : nat) (t : N) : Z * N :=
  match tries with
  | 0 => (0%Z, t)
  | S n => if bool_decide (cell t = 0%Z) then wait_pid cell n (t + 200)%N else (cell t, t)
  end.
(** sandbox.rs:203-234 [Sandbox::kill] at time [t]: the pid the SIGTERM is sent to, and when. *)
Definition kill (cell : N -> Z) (t : N) : option (Z * N) :=
  let '(pid, t') := wait_pid cell 5 t in
  if bool_decide (pid = 0%Z) then None else Some (pid, t').

(** ** Where the program of the sandbox is *)
(** find_tools.rs:5-22: [var] is TASK_MAKER_TOOLS_PATH, [beside] the path of task-maker-tools beside the current
    executable (if that is known), [there] whether it exists. *)
Definition find_tools_path (var beside : option string) (there : string -> bool) : string :=
  match var with
  | Some p => p
  | None =>
    match beside with
    | Some p => if there p then p else "task-maker-tools"
    | None => "task-maker-tools"
    end
  end.
