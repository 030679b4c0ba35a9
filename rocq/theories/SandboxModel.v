(** * SandboxModel: task-maker-exec/src/sandbox.rs: the configuration given to the sandbox, the directory prepared for it

    Definitions only.

    - The machine is an environment: which directories exist, the variables, where a command is found.  What tabox does
      with the configuration is not modelled.
    - A path is whether it is absolute and its components ([Path::components]); [join], [strip_prefix] are those of
      std::path: joining an absolute path forgets the first one.
    - Durations are f64 numbers; u64 arithmetic wraps (a release build; a debug build panics instead).
    - File operations do not fail, except the tests that the code makes; the texts of the errors are left out. *)
From stdpp Require Export base list gmap strings.
From Verif Require Export FloatModel.
Open Scope Z_scope.

(** ** Paths *)
Record spath := SPath { sp_abs : bool; sp_comps : list string }.
Global Instance spath_eq_dec : EqDecision spath.
Proof. solve_decision. Defined.
Global Instance spath_countable : Countable spath.
Proof. by refine (inj_countable' (fun p => (sp_abs p, sp_comps p)) (fun x => SPath x.1 x.2) _); intros []. Defined.
(** std: [Path::join] *)
Definition pjoin (p q : spath) : spath := if sp_abs q then q else SPath (sp_abs p) (sp_comps p ++ sp_comps q).
Definition rel (l : list string) : spath := SPath false l.
Definition absolute (l : list string) : spath := SPath true l.
Fixpoint strip_comps (p q : list string) : option (list string) :=
  match p, q with
  | [], q => Some q
  | x :: p, y :: q => if decide (x = y) then strip_comps p q else None
  | _ :: _, [] => None
  end.
(** std: [Path::strip_prefix]: [strip_prefix p q] removes [p] from the front of [q] *)
Definition strip_prefix (p q : spath) : option spath :=
  if bool_decide (sp_abs p = sp_abs q) then SPath false <$> strip_comps (sp_comps p) (sp_comps q) else None.

(** ** The execution, as the sandbox sees it *)
Inductive scommand := SSystem (cmd : spath) | SLocal (cmd : spath).
Record slimits := SLimits {
  sl_cpu : option f64; sl_sys : option f64; sl_wall : option f64; sl_memory : option Z; sl_stack : option Z;
  sl_multiprocess : bool; sl_read_only : bool; sl_tmpfs : bool; sl_proc : bool; sl_extra_dirs : list spath }.
Record sexec := SExec {
  se_command : scommand; se_args : list string;
  se_stdin : option positive; se_stdout : option positive; se_stderr : option positive;
  se_stdin_redirect : option spath; se_stdout_redirect : option spath; se_stderr_redirect : option spath;
  se_inputs : list (spath * (positive * bool)); se_outputs : list spath;
  se_env : list (string * string); se_copy_env : list string;
  se_limits : slimits; se_extra_time : f64; se_extra_memory : Z }.

(** The machine *)
Record machine := Machine {
  m_var : string -> option string;          (* std::env::var *)
  m_is_dir : spath -> bool;                 (* Path::is_dir *)
  m_which : spath -> option spath;          (* which::which, then canonicalize; None: not found *)
  m_parent : spath -> spath;                (* Path::parent of the executable found *)
  m_local_ok : spath -> bool }.             (* sandbox.rs:565-579 [validate_local_executable] *)

(** ** The limits (sandbox.rs:366-387) *)
(** Rust: [f64::ceil], then [as u64]: rounds towards +infinity, NaN is 0, too small is 0, too large is the largest. *)
Definition u64_max : Z := 18446744073709551615.
Definition ceil_Z (x : f64) : Z :=
  match x with
  | S754_finite s m e => let v := if s then Zneg m else Zpos m in if (0 <=? e) then v * 2 ^ e else - ((- v) / 2 ^ (- e))
  | _ => 0
  end.
Definition ceil_u64 (x : f64) : Z :=
  match x with
  | S754_nan => 0
  | S754_infinity s => if s then 0 else u64_max
  | _ => Z.max 0 (Z.min (ceil_Z x) u64_max)
  end.
(** u64 additions and multiplications *)
Definition wrap (z : Z) : Z := z mod 18446744073709551616.
(** sandbox.rs:366-371 *)
Definition cpu_limit (l : slimits) : option f64 :=
  match sl_cpu l, sl_sys l with
  | Some cpu, Some sys => Some (f64_add cpu sys)
  | Some cpu, None => Some cpu
  | None, Some sys => Some sys
  | None, None => None
  end.
(** sandbox.rs:372-387: seconds, seconds, bytes, bytes *)
Definition time_limit (e : sexec) : option Z := (fun cpu => ceil_u64 (f64_add cpu (se_extra_time e))) <$> cpu_limit (se_limits e).
Definition wall_limit (e : sexec) : option Z := (fun wall => ceil_u64 (f64_add wall (se_extra_time e))) <$> sl_wall (se_limits e).
Definition memory_limit (e : sexec) : option Z := (fun mem => wrap (wrap (mem + se_extra_memory e) * 1024)) <$> sl_memory (se_limits e).
Definition stack_limit (e : sexec) : option Z := (fun st => wrap (st * 1024)) <$> sl_stack (se_limits e).

(** ** The configuration (tabox: [SandboxConfiguration]) *)
Record mount := Mount { mt_source : spath; mt_target : spath; mt_writable : bool }.
Record config := Config {
  c_workdir : spath; c_stdin : spath; c_stdout : spath; c_stderr : spath;
  c_env : list (string * string);
  c_time : option Z; c_wall : option Z; c_memory : option Z; c_stack : option Z;
  c_multiprocess : bool; c_chmod : bool;           (* the two arguments of SyscallFilter::build *)
  c_mounts : list mount; c_tmpfs : bool; c_proc : bool;
  c_executable : spath; c_args : list string; c_uid : Z; c_gid : Z }.

(** sandbox.rs:28-39 [READABLE_DIRS] *)
Definition readable_dirs : list spath :=
  map absolute [["lib"]; ["lib64"]; ["usr"]; ["bin"]; ["opt"]; ["etc"; "alternatives"]; ["var"; "lib"; "dpkg"; "alternatives"]; ["var"; "lib"; "texmf"]].
(** execution_group.rs:12 [FIFO_SANDBOX_DIR] *)
Definition fifo_sandbox_dir : spath := rel ["tm_pipes"].
(** sandbox.rs:313-323 [box_root], on Linux *)
Definition box_root : spath := absolute ["box"].

(** sandbox.rs:284-303 [sandbox_to_host_path] *)
Definition to_host (path boxdir : spath) (fifo_dir : option spath) : spath :=
  match fifo_dir ≫= (fun d => pjoin d <$> strip_prefix fifo_sandbox_dir path) with
  | Some p => p
  | None => match strip_prefix (absolute []) path with
            | Some p => pjoin boxdir p
            | None => pjoin box_root path
            end
  end.
(** sandbox.rs:338-358: a standard stream *)
Definition stream_path (boxdir : spath) (fifo_dir : option spath) (redirect : option spath) (file : option positive) (name : string) : spath :=
  match redirect, file with
  | Some path, _ => to_host path boxdir fifo_dir
  | None, Some _ => pjoin boxdir (rel [name])
  | None, None => absolute ["dev"; "null"]
  end.
(** sandbox.rs:337, 359-366: the variables, in the order they are set *)
Definition environment (m : machine) (e : sexec) : list (string * string) :=
  ("PATH"%string, default ""%string (m_var m "PATH")) :: omap (fun k => pair k <$> m_var m k) (se_copy_env e) ++ se_env e.
(** sandbox.rs:401-413: a directory is mounted read-only, once, if it exists *)
Fixpoint mount_dirs (m : machine) (dirs : list spath) (mounted : list spath) : list mount * list spath :=
  match dirs with
  | [] => ([], mounted)
  | d :: dirs =>
    if negb (bool_decide (d ∈ mounted)) && m_is_dir m d
    then let r := mount_dirs m dirs (d :: mounted) in (Mount d d false :: r.1, r.2)
    else mount_dirs m dirs mounted
  end.
(** sandbox.rs:420-449: the executable, and the mount of its directory *)
Definition executable (m : machine) (boxdir : spath) (e : sexec) (mounted : list spath) : option (list mount * spath) :=
  match se_command e with
  | SSystem cmd =>
    cmd ← m_which m cmd;
    let dir := m_parent m cmd in
    Some ((if bool_decide (dir ∈ mounted) then [] else [Mount dir dir false]), cmd)
  | SLocal cmd => if m_local_ok m (pjoin (pjoin boxdir (rel ["box"%string])) cmd) then Some ([], pjoin box_root cmd) else None
  end.
(** sandbox.rs:326-456 [build_command] *)
Definition build_command (m : machine) (boxdir : spath) (e : sexec) (fifo_dir : option spath) : option config :=
  let l := se_limits e in
  let (m1, mounted1) := mount_dirs m readable_dirs [] in
  let (m2, mounted2) := mount_dirs m (sl_extra_dirs l) mounted1 in
  x ← executable m boxdir e mounted2;
  Some (Config box_root
    (stream_path boxdir fifo_dir (se_stdin_redirect e) (se_stdin e) "stdin")
    (stream_path boxdir fifo_dir (se_stdout_redirect e) (se_stdout e) "stdout")
    (stream_path boxdir fifo_dir (se_stderr_redirect e) (se_stderr e) "stderr")
    (environment m e)
    (time_limit e) (wall_limit e) (memory_limit e) (stack_limit e)
    (sl_multiprocess l) (negb (sl_read_only l))
    (Mount (pjoin boxdir (rel ["box"%string])) box_root true ::
     Mount (pjoin boxdir (rel ["etc"%string])) (absolute ["etc"%string]) true ::
     match fifo_dir with Some d => [Mount d (pjoin box_root fifo_sandbox_dir) false] | None => [] end ++
     m1 ++ m2 ++ x.1)
    (sl_tmpfs l) (sl_proc l) x.2 (se_args e) 1000 1000).

(** sandbox.rs:253-281 [stdout_path], [stderr_path], [output_path]: where the worker looks for what was written *)
Definition stdout_path (boxdir : spath) (e : sexec) : spath :=
  match se_stdout_redirect e with Some p => pjoin boxdir p | None => pjoin boxdir (rel ["stdout"%string]) end.
Definition stderr_path (boxdir : spath) (e : sexec) : spath :=
  match se_stderr_redirect e with Some p => pjoin boxdir p | None => pjoin boxdir (rel ["stderr"%string]) end.
Definition output_path (boxdir p : spath) : spath := pjoin (pjoin boxdir (rel ["box"%string])) p.

(** ** The directory of the sandbox (sandbox.rs:459-563) *)
(** What is done to the disk: a directory; a file with the content of a stored file (linked or copied) and its mode; an
    empty file and its mode; a mode.  (The creation of the directory of a file is part of it.) *)
Inductive disk_op :=
  | DirAt (p : spath) | PasswdAt (p : spath) | FileAt (p : spath) (content : positive) (mode : Z) | EmptyAt (p : spath) (mode : Z) | ModeOf (p : spath) (mode : Z).
(** sandbox.rs:520-545 [write_sandbox_file] *)
Definition write_file (p : spath) (content : positive) (executable : bool) : disk_op := FileAt p content (if executable then 320 else 256).
(** sandbox.rs:459-511 [setup]; [keys] are the files of the job (its inputs); None: an error *)
Definition setup (boxdir : spath) (e : sexec) (keys : gmap positive positive) : option (list disk_op) :=
  let box := pjoin boxdir (rel ["box"%string]) in
  stdin ← match se_stdin e with
          | None => Some []
          | Some f => k ← keys !! f; Some [write_file (pjoin boxdir (rel ["stdin"%string])) k false]
          end;
  inputs ← mapM (fun i => k ← keys !! i.2.1; Some (write_file (pjoin box i.1) k i.2.2)) (se_inputs e);
  Some ([DirAt box; DirAt (pjoin boxdir (rel ["etc"%string])); PasswdAt (pjoin (pjoin boxdir (rel ["etc"%string])) (rel ["passwd"%string]))] ++
        stdin ++
        match se_stdout e with Some _ => [EmptyAt (pjoin boxdir (rel ["stdout"%string])) 384] | None => [] end ++
        match se_stderr e with Some _ => [EmptyAt (pjoin boxdir (rel ["stderr"%string])) 384] | None => [] end ++
        inputs ++
        map (fun p => EmptyAt (pjoin box p) 384) (se_outputs e) ++
        (if sl_read_only (se_limits e) then [ModeOf box 320] else [])).

(** ** What the sandbox reported (sandbox.rs:167-197), and the status (execution.rs:770-807) *)
Inductive exit_status := ExitCode (code : Z) | ExitSignal (s : Z) | Killed.
Inductive verdict := VSuccess | VReturnCode (c : Z) | VSignal (s : Z) | VTime | VSysTime | VWallTime | VMemory.
Record usage := Usage { u_user : f64; u_sys : f64; u_wall : f64; u_memory : Z }.   (* the memory is in bytes *)
Definition over (limit : option f64) (used : f64) : bool := match limit with Some l => f64_lt l used | None => false end.
Definition verdict_of (e : sexec) (u : usage) (x : exit_status) : verdict :=
  let l := se_limits e in
  if over (sl_cpu l) (u_user u) then VTime
  else if over (sl_sys l) (u_sys u) then VSysTime
  else if over (sl_wall l) (u_wall u) then VWallTime
  else if match sl_memory l with Some m => m <? u_memory u / 1024 | None => false end then VMemory
  else match x with
       | ExitCode c => if decide (c mod 4294967296 = 0) then VSuccess else VReturnCode (c mod 4294967296)
       | ExitSignal s => VSignal s
       | Killed => VSignal 9
       end.
