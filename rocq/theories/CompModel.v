(** * CompModel: task-maker-format/src/source_file.rs, with the parts of task-maker-lang/src/source_file.rs,
      task-maker-format/src/lib.rs [bind_exec_callbacks!] and task-maker-exec/src/client.rs that report a compilation

    Definitions only.

    - The source files of a task are numbered; [srcs i] is the file number i.  The compilation itself (command, inputs,
      graders) is in BuildModel.v and LangModel.v.
    - [up ms] tells whether the user interface still receives when [ms] are the messages it already received.
    - Whether the calls that read the disk succeed is part of the call.
    - Other parts of the program add no callbacks to the compilations. *)
From Verif Require Export DagModel.

(** Paths are lists of components; the first component of an absolute path is the empty string. *)
Notation cpath := (list string).
(** format/source_file.rs:19-24 and lang/source_file.rs:20-44: the path, the base path, the description and whether the
    language needs a compilation ([compilation_builder] is [Some]) *)
Record source := Source { s_path : cpath; s_base : cpath; s_desc : string; s_compiled : bool }.

(** ui/mod.rs: [UIExecutionStatus], [UIMessage::Compilation], [UIMessage::Diagnostic] *)
Inductive ustatus := UPending | UStarted (w : worker_uuid) | UDone (r : exec_result) | USkipped.
Inductive umsg :=
  | UCompilation (file : cpath) (s : ustatus)
  | UDiagnostic (title : string) (note : option string) (attachment : option (list N)).

(** [Path::display] *)
Fixpoint show_path (p : cpath) : string :=
  match p with [] => "" | [x] => x | x :: p => x +:+ "/" +:+ show_path p end.
(** [Path::strip_prefix] with [unwrap_or(&self.path)] (source_file.rs:95-99) *)
Fixpoint strip (base p : cpath) : option cpath :=
  match base, p with
  | [], _ => Some p
  | b :: base, x :: p => if decide (b = x) then strip base p else None
  | _ :: _, [] => None
  end.
Definition shown_path (s : source) : cpath := default (s_path s) (strip (s_base s) (s_path s)).

(** The callbacks bound to a compilation: what each of them sends *)
Inductive callback :=
  | CbStatus (file : cpath)                        (* lib.rs:331-354 *)
  | CbFailure (shown : cpath) (description : string). (* source_file.rs:102-113 *)
Record cbs := Cbs { cb_start : list callback; cb_done : list callback; cb_skip : list callback }.
(** source_file.rs:102-113 *)
Definition failure_messages (shown : cpath) (description : string) (r : exec_result) : list umsg :=
  if is_success (res_status r) then []
  else [UDiagnostic ("Failed to compile " +:+ show_path shown) (Some description) (res_stderr r)].

Record cstate := CState {
  cs_next : positive;               (* the next identifier *)
  cs_exes : gset nat;               (* the sources whose [executable] is set *)
  cs_execs : list exec_uuid;        (* the compilations added to the DAG *)
  cs_cbs : gmap exec_uuid cbs;
  cs_ui : list umsg }.
Definition init_cstate : cstate := CState 1 ∅ [] ∅ [].

(** What the executor tells about an execution (client.rs:127-160) *)
Inductive notice := NStart (u : exec_uuid) (w : worker_uuid) | NDone (u : exec_uuid) (r : exec_result) | NSkip (u : exec_uuid).

(** A call: [prepare], [executable] or [execute]; whether the files of the compilation (or the source) can be provided,
    and the files of the execution *)
Inductive use_kind := KPrepare | KExecutable | KExecute.
Record use := Use { u_src : nat; u_kind : use_kind; u_prepare_ok : bool; u_provide_ok : bool }.

Section comp.
  Context (srcs : nat -> source) (up : list umsg -> bool).

  (** [sender.send]; the boolean is whether it succeeds *)
  Definition send (m : umsg) (s : cstate) : bool * cstate :=
    if up (cs_ui s) then (true, CState (cs_next s) (cs_exes s) (cs_execs s) (cs_cbs s) (cs_ui s ++ [m])) else (false, s).

  (** lang/source_file.rs:256-298 [prepare]; [None] is an error *)
  Definition prepare (i : nat) (ok : bool) (s : cstate) : option (option exec_uuid) * cstate :=
    if decide (i ∈ cs_exes s) then (Some None, s)
    else if s_compiled (srcs i) then
      if ok then
        let u := cs_next s in
        (Some (Some u), CState (Pos.succ u) ({[i]} ∪ cs_exes s) (cs_execs s ++ [u]) (cs_cbs s) (cs_ui s))
      else (None, s)
    else
      (if ok then Some None else None, CState (cs_next s) ({[i]} ∪ cs_exes s) (cs_execs s) (cs_cbs s) (cs_ui s)).

  (** dag.rs:246-273: callbacks are added after the ones already there *)
  Definition add_cbs (u : exec_uuid) (c : cbs) (s : cstate) : cstate :=
    let o := default (Cbs [] [] []) (cs_cbs s !! u) in
    CState (cs_next s) (cs_exes s) (cs_execs s)
      (<[u := Cbs (cb_start o ++ cb_start c) (cb_done o ++ cb_done c) (cb_skip o ++ cb_skip c)]> (cs_cbs s)) (cs_ui s).
  (** source_file.rs:79-117 [bind_compilation_exe] *)
  Definition bind_compilation_exe (i : nat) (comp : option exec_uuid) (s : cstate) : bool * cstate :=
    match comp with
    | None => (true, s)
    | Some u =>
      let file := s_path (srcs i) in
      match send (UCompilation file UPending) s with
      | (false, s) => (false, s)
      | (true, s) =>
        let s := add_cbs u (Cbs [CbStatus file] [CbStatus file] [CbStatus file]) s in
        (true, add_cbs u (Cbs [] [CbFailure (shown_path (srcs i)) (s_desc (srcs i))] []) s)
      end
    end.
  (** source_file.rs:50-76 [execute], [prepare], [executable] *)
  Definition do_use (x : use) (s : cstate) : bool * cstate :=
    match prepare (u_src x) (u_prepare_ok x) s with
    | (None, s) => (false, s)
    | (Some comp, s) =>
      match u_kind x with
      | KExecute => if u_provide_ok x then bind_compilation_exe (u_src x) comp s else (false, s)
      | _ => bind_compilation_exe (u_src x) comp s
      end
    end.
  (** The construction of the DAG: the first error ends it *)
  Fixpoint build (xs : list use) (s : cstate) : bool * cstate :=
    match xs with
    | [] => (true, s)
    | x :: xs => match do_use x s with (true, s) => build xs s | (false, s) => (false, s) end
    end.

  (** What a callback sends for a notification *)
  Definition on_start (w : worker_uuid) (c : callback) : list umsg :=
    match c with CbStatus file => [UCompilation file (UStarted w)] | CbFailure _ _ => [] end.
  Definition on_done (r : exec_result) (c : callback) : list umsg :=
    match c with CbStatus file => [UCompilation file (UDone r)] | CbFailure p d => failure_messages p d r end.
  Definition on_skip (c : callback) : list umsg :=
    match c with CbStatus file => [UCompilation file USkipped] | CbFailure _ _ => [] end.
  Fixpoint send_all (ms : list umsg) (s : cstate) : bool * cstate :=
    match ms with
    | [] => (true, s)
    | m :: ms => match send m s with (true, s) => send_all ms s | (false, s) => (false, s) end
    end.
  (** client.rs:130-135: [for callback in callbacks.drain(..)], the first error ends everything *)
  Fixpoint call_all (f : callback -> list umsg) (l : list callback) (s : cstate) : bool * cstate :=
    match l with
    | [] => (true, s)
    | c :: l => match send_all (f c) s with (true, s) => call_all f l s | (false, s) => (false, s) end
    end.
  Definition set_cbs (u : exec_uuid) (c : cbs) (s : cstate) : cstate :=
    CState (cs_next s) (cs_exes s) (cs_execs s) (<[u := c]> (cs_cbs s)) (cs_ui s).
  (** client.rs:127-160 *)
  Definition notify (n : notice) (s : cstate) : bool * cstate :=
    match n with
    | NStart u w =>
      match cs_cbs s !! u with
      | Some c => call_all (on_start w) (cb_start c) (set_cbs u (Cbs [] (cb_done c) (cb_skip c)) s)
      | None => (true, s)
      end
    | NDone u r =>
      match cs_cbs s !! u with
      | Some c => call_all (on_done r) (cb_done c) (set_cbs u (Cbs (cb_start c) [] (cb_skip c)) s)
      | None => (true, s)
      end
    | NSkip u =>
      match cs_cbs s !! u with
      | Some c => call_all on_skip (cb_skip c) (set_cbs u (Cbs (cb_start c) (cb_done c) []) s)
      | None => (true, s)
      end
    end.
  Fixpoint notify_all (ns : list notice) (s : cstate) : bool * cstate :=
    match ns with
    | [] => (true, s)
    | n :: ns => match notify n s with (true, s) => notify_all ns s | (false, s) => (false, s) end
    end.
  (** The construction of the DAG, then its evaluation *)
  Definition build_and_run (xs : list use) (ns : list notice) : bool * cstate :=
    match build xs init_cstate with (true, s) => notify_all ns s | (false, s) => (false, s) end.
End comp.
