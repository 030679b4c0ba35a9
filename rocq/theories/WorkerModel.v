(** * WorkerModel: task-maker-exec/src/worker.rs

    Definitions only.

    - The main loop of the worker and the thread of the sandbox group manager are a transition system; a step is the
      handling of one message or what the manager does between two blocking receives.  All that is received or done is
      an event of the trace.
    - The sandboxes are the environment: they report in any order, with any result and any files left on disk.
    - Sending on a channel always succeeds (a closed channel is noticed by the receiving side); the temporary directories
      and the file contents are left out (a file is its store key).
    - A file store lookup may have a different answer each time: [get n] is the answer of the n-th lookup of a job. *)
From stdpp Require Export gmap.
From Verif Require Export DagModel.

Notation bytes := (list N).

(** ** Capturing the output (worker.rs:646-667) *)
(** What reading a file gives: it may fail to open; the data returned by the successive calls of [read]; whether the call
    after them fails (else it is the end of the file). *)
Record stream := Stream { st_open : bool; st_reads : list bytes; st_error : bool }.
(** worker.rs:653-663: the loop; [None] is an error *)
Fixpoint capture_loop (count : N) (reads : list bytes) (error : bool) (result : bytes) : option bytes :=
  if bool_decide (N.of_nat (length result) < count)%N then
    match reads with
    | [] => if error then None else Some result
    | [] :: _ => Some result                               (* n == 0 *)
    | c :: reads => capture_loop count reads error (result ++ c)
    end
  else Some result.
(** worker.rs:648-667 [capture_stream]: [None] is an error, [Some None] is [Ok(None)] *)
Definition capture_stream (s : stream) (count : option N) : option (option bytes) :=
  match count with
  | None => Some None
  | Some count => if st_open s then Some <$> capture_loop count (st_reads s) (st_error s) [] else None
  end.

(** ** The result of an execution *)
(** sandbox.rs:40-61 *)
Inductive sandbox_result :=
  | SbSuccess (exit_status : Z) (signal : option (Z * string)) (r : resources) (was_killed : bool)
  | SbFailed (error : string).
(** An output file after the execution: absent, not readable (its key cannot be computed), or present. *)
Inductive disk_file := DAbsent | DUnreadable | DPresent (k : store_key).
(** What an execution leaves: its captured streams and its files. *)
Record leftovers := Leftovers { lo_stdout : stream; lo_stderr : stream; lo_file : file_uuid -> disk_file }.
(** execution.rs [ExecutionResourcesUsage::default] *)
Definition no_resources : resources := Resources 0 0 0 0.
(** worker.rs:559-602 [compute_execution_result]; the texts of the errors are left out. *)
Definition compute_execution_result (e : execution) (r : sandbox_result) (lo : leftovers) : exec_result :=
  match r with
  | SbSuccess exit_status signal res was_killed =>
    let out := capture_stream (lo_stdout lo) (e_capture_stdout e) in
    let err := capture_stream (lo_stderr lo) (e_capture_stderr e) in
    let status := match out, err with
                  | Some _, Some _ => exec_status e exit_status signal res
                  | None, _ => InternalError "Failed to read stdout file"
                  | _, None => InternalError "Failed to read stderr file"
                  end in
    ExecResult status was_killed false res (default None out) (default None err)
  | SbFailed error => ExecResult (InternalError error) false false no_resources None None
  end.
Section worker.
(** The key of the empty content. *)
Context (empty_key : store_key).
(** worker.rs:605-644 [get_result_outputs]: the new outputs and the status *)
Definition add_file (lo : leftovers) (acc : gmap file_uuid store_key * status) (f : file_uuid) : gmap file_uuid store_key * status :=
  match lo_file lo f with
  | DPresent k => (<[f := k]> acc.1, acc.2)
  | DUnreadable => (acc.1, InternalError "Failed to get store key")
  | DAbsent => (<[f := empty_key]> acc.1, acc.2)
  end.
Definition get_result_outputs (e : execution) (lo : leftovers) (outs : gmap file_uuid store_key) (st : status)
    : gmap file_uuid store_key * status :=
  fold_left (add_file lo) (outputs e) (outs, st).
Definition with_status (r : exec_result) (st : status) : exec_result :=
  ExecResult st (res_was_killed r) (res_was_cached r) (res_resources r) (res_stdout r) (res_stderr r).

(** ** The state *)
(** executor.rs [WorkerJob] *)
Record wjob := WJob { j_group : group; j_keys : gmap file_uuid store_key }.
(** The thread of the manager (worker.rs:386-532): not running, waiting for the sandboxes, waiting for the list of files. *)
Inductive mgr :=
  | MIdle
  | MRun (j : wjob) (results : list (option exec_result)) (outs : gmap file_uuid store_key)
  | MWait (j : wjob) (outs : gmap file_uuid store_key).
(** The main loop runs, ended, or failed ([panic]: it panicked). *)
Inductive main := MainRun | MainEnd | MainFailed (panic : bool).
(** worker.rs:24-34 [WorkerCurrentJob]: the job and the handles of its inputs (as keys), the number of sandboxes, the
    missing dependencies, and the channel to the manager: whether the sender is there, and the list sent. *)
Record wstate := WState {
  w_job : option (wjob * gmap file_uuid store_key);
  w_boxes : option nat;
  w_missing : gmap store_key (list file_uuid);
  w_sender : bool;
  w_queue : option (list file_uuid);
  w_mgr : mgr;
  w_main : main
}.

Inductive wmsg :=
  | WWork (j : wjob) | WProvideFile (k : store_key) | WExit | WKillJob (g : group_uuid) | WAskFiles (l : list file_uuid).
Inductive wevent :=
  (* received *)
  | EvRecv (m : wmsg) | EvClosed
  | EvReport (i : nat) (r : sandbox_result) (lo : leftovers)
  (* done *)
  | EvAsk (k : store_key)
  | EvStart (j : wjob) (handles : gmap file_uuid store_key)
  | EvKill (i : nat)                                   (* by the manager, because of a failure *)
  | EvStopKill (i : nat)                               (* by the main loop *)
  | EvDone (rs : list exec_result) (outs : gmap file_uuid store_key)
  | EvProvide (f : file_uuid) (k : store_key)
  | EvGetWork
  | EvDropped.                                         (* the manager ends without asking for work *)

Definition failed (panic : bool) (s : wstate) : wstate :=
  WState (w_job s) (w_boxes s) (w_missing s) (w_sender s) (w_queue s) (w_mgr s) (MainFailed panic).

(** worker.rs:156-164, 308-378 [start_job], [execute_job]; [ok]: the sandboxes were created. *)
Definition start_job (ok : bool) (s : wstate) : list wevent * wstate :=
  match w_job s with
  | None => ([], failed false s)
  | Some (j, handles) =>
    if ok then
      let n := length (g_execs (j_group j)) in
      ([EvStart j handles],
       WState (w_job s) (Some n) (w_missing s) true None (MRun j (replicate n None) ∅) (w_main s))
    else ([], failed false s)
  end.
(** worker.rs:191-214: the dependencies of a job; [None]: a key is missing *)
Fixpoint scan (keys : gmap file_uuid store_key) (get : nat -> bool) (n : nat) (deps : list file_uuid)
    (missing : gmap store_key (list file_uuid)) (handles : gmap file_uuid store_key)
    : list wevent * option (gmap store_key (list file_uuid) * gmap file_uuid store_key) :=
  match deps with
  | [] => ([], Some (missing, handles))
  | f :: deps =>
    match keys !! f with
    | None => ([], None)
    | Some k =>
      if get n then scan keys get (S n) deps missing (<[f := k]> handles)
      else
        let ask := match missing !! k with Some _ => [] | None => [EvAsk k] end in
        let '(evs, r) := scan keys get (S n) deps (<[k := default [] (missing !! k) ++ [f]]> missing) handles in
        (ask ++ evs, r)
    end
  end.
(** worker.rs:187-224 [Work] *)
Definition on_work (get : nat -> bool) (start_ok : bool) (j : wjob) (s : wstate) : list wevent * wstate :=
  match w_job s with
  | Some _ => ([], failed true s)
  | None =>
    match scan (j_keys j) get 0 (group_deps (j_group j)) ∅ ∅ with
    | (evs, None) => (evs, failed false s)
    | (evs, Some (missing, handles)) =>
      let s := WState (Some (j, handles)) (w_boxes s) missing (w_sender s) (w_queue s) (w_mgr s) (w_main s) in
      if decide (missing = ∅) then let '(evs', s) := start_job start_ok s in (evs ++ evs', s) else (evs, s)
    end
  end.
(** worker.rs:225-250 [ProvideFile]; [stored]: the transfer was complete and the file could be stored *)
Definition on_provide_file (stored start_ok : bool) (k : store_key) (s : wstate) : list wevent * wstate :=
  if negb stored then ([], failed false s)
  else
    match w_missing s !! k with
    | None => ([], failed false s)
    | Some uuids =>
      let missing := delete k (w_missing s) in
      match w_job s with
      | None => ([], failed false s)
      | Some (j, handles) =>
        let handles := fold_left (fun h f => <[f := k]> h) uuids handles in
        let s := WState (Some (j, handles)) (w_boxes s) missing (w_sender s) (w_queue s) (w_mgr s) (w_main s) in
        if decide (missing = ∅) then start_job start_ok s else ([], s)
      end
    end.
(** worker.rs:255-268 [KillJob] *)
Definition on_kill_job (g : group_uuid) (s : wstate) : list wevent * wstate :=
  match w_job s, w_boxes s with
  | Some (j, _), Some n => (if decide (g_uuid (j_group j) = g) then map EvStopKill (seq 0 n) else [], s)
  | _, _ => ([], s)
  end.
(** worker.rs:269-278 [AskFiles] *)
Definition on_ask_files (l : list file_uuid) (s : wstate) : list wevent * wstate :=
  if w_sender s then ([], WState (w_job s) (w_boxes s) (w_missing s) false (Some l) (w_mgr s) (w_main s)) else ([], s).
(** worker.rs:251-254, 297-304: the end of the loop *)
Definition stop (s : wstate) : wstate :=
  WState (w_job s) (w_boxes s) (w_missing s) false (w_queue s) (w_mgr s) MainEnd.
(** worker.rs:279-294: the connection was closed *)
Definition on_closed (s : wstate) : list wevent * wstate :=
  (match w_boxes s with Some n => map EvStopKill (seq 0 n) | None => [] end, stop s).
Definition on_msg (get : nat -> bool) (stored start_ok : bool) (m : wmsg) (s : wstate) : list wevent * wstate :=
  match m with
  | WWork j => on_work get start_ok j s
  | WProvideFile k => on_provide_file stored start_ok k s
  | WExit => ([], stop s)
  | WKillJob g => on_kill_job g s
  | WAskFiles l => on_ask_files l s
  end.

(** worker.rs:442-473: a sandbox reported to the manager (and worker.rs:402-420: a group of one execution).  The kill
    depends on the status before the outputs are examined. *)
Definition pending (results : list (option exec_result)) (i : nat) : bool :=
  match results !! i with Some None => true | _ => false end.
Definition killed_by (results : list (option exec_result)) (i : nat) : list nat :=
  List.filter (fun x => negb (x =? i) && pending results x) (seq 0 (length results)).
Definition on_report (j : wjob) (results : list (option exec_result)) (outs : gmap file_uuid store_key)
    (i : nat) (e : execution) (r : sandbox_result) (lo : leftovers) : list wevent * mgr :=
  let res := compute_execution_result e r lo in
  let kills := if is_success (res_status res) then [] else map EvKill (killed_by results i) in
  let '(outs, st) := get_result_outputs e lo outs (res_status res) in
  (kills, MRun j (<[i := Some (with_status res st)]> results) outs).
(** worker.rs:492-506: the files asked by the server *)
Definition provide (outs : gmap file_uuid store_key) (l : list file_uuid) : list wevent :=
  omap (fun f => EvProvide f <$> outs !! f) l.

Definition set_mgr (m : mgr) (s : wstate) : wstate :=
  WState (w_job s) (w_boxes s) (w_missing s) (w_sender s) (w_queue s) m (w_main s).
(** worker.rs:516-519, 523-526 *)
Definition reset_job (s : wstate) : wstate :=
  WState None None (w_missing s) (w_sender s) (w_queue s) MIdle (w_main s).

Inductive wstep : wstate -> list wevent -> wstate -> Prop :=
  | S_msg s get stored start_ok m evs s' :
      w_main s = MainRun -> on_msg get stored start_ok m s = (evs, s') -> wstep s (EvRecv m :: evs) s'
  | S_closed s evs s' : w_main s = MainRun -> on_closed s = (evs, s') -> wstep s (EvClosed :: evs) s'
  (* a sandbox that did not report yet *)
  | S_report s j results outs i e r lo kills m :
      w_mgr s = MRun j results outs -> results !! i = Some None -> g_execs (j_group j) !! i = Some e ->
      on_report j results outs i e r lo = (kills, m) ->
      wstep s (EvReport i r lo :: kills) (set_mgr m s)
  (* worker.rs:483-489 *)
  | S_done s j results outs rs :
      w_mgr s = MRun j results outs -> results = map Some rs -> wstep s [EvDone rs outs] (set_mgr (MWait j outs) s)
  (* worker.rs:490-531 *)
  | S_files s j outs l : w_mgr s = MWait j outs -> w_queue s = Some l ->
      wstep s (provide outs l ++ [EvGetWork]) (reset_job s)
  | S_nofiles s j outs : w_mgr s = MWait j outs -> w_queue s = None -> w_sender s = false -> wstep s [EvDropped] (reset_job s).
(** worker.rs:179-183 *)
Definition w_init : wstate := WState None None ∅ false None MIdle MainRun.
Inductive wreach : list wevent -> wstate -> Prop :=
  | wr_init : wreach [EvGetWork] w_init
  | wr_step tr s evs s' : wreach tr s -> wstep s evs s' -> wreach (tr ++ evs) s'.
End worker.
