(** * LifeModel: the threads of a run of task-maker, how it starts, stops and ends
      (src/context.rs, task-maker-exec/src/client.rs, executor.rs, executors/local_executor.rs, worker_manager.rs, worker.rs)

    Definitions only.  One step is one message handled by one thread.  Simplifications: a message carries no data; what the
    scheduler decides (the messages to the client, the jobs to assign) is any choice, with a bound on the number of jobs
    (the DAG is finite, and C06: no group is run twice); a file transfer is one message; the jobs end (the limits of the
    sandbox); a worker is given a job only when it is free (C35, C60), a job given to a busy worker is ignored; the
    results asked by the server to a worker are sent at once; the workers and the UI do not crash.  The channels are the
    unbounded FIFO channels of the standard library and of ductile: a send fails iff the receiver is gone, a receive fails
    iff the channel is empty and all the senders are gone. *)
From stdpp Require Export base list.

(** proto.rs:12-40 [ExecutorClientMessage]: from the client to the client manager *)
Inductive a_msg := AEvaluate | AProvide | AAsk | AStatus | AStop.
(** proto.rs:45-80 [ExecutorServerMessage]: to the client ([BNotify]: start, done, skip, status) *)
Inductive b_msg := BAsk | BFile | BNotify | BError | BDone.
(** scheduler.rs:31-85 [SchedulerInMessage]: to the scheduler ([SWorker]: a worker connected, or its result) *)
Inductive c_msg := SEvaluate | SFile | SStatus | SDisconnect | SExit | SWorker.
(** scheduler.rs:90-140 [SchedulerExecutorMessageData]: from the scheduler to the scheduler binder *)
Inductive d_msg := DNotify | DFile | DDone.
(** worker_manager.rs:20-45 [WorkerManagerInMessage]: to the worker manager, about a worker *)
Inductive e_msg := EJob (w : nat) | EKill (w : nat) | EExit.
(** proto.rs [WorkerServerMessage]: to a worker ([FFiles]: AskFiles) *)
Inductive f_msg := FWork | FKill | FExit | FFiles.
(** proto.rs [WorkerClientMessage]: from a worker *)
Inductive g_msg := GGet | GDone.
(** ui_message.rs [UIMessage]: the messages to the UI, [UStop] is StopUI *)
Inductive u_msg := UMessage (n : nat) | UStop.
Global Instance a_msg_dec : EqDecision a_msg. Proof. solve_decision. Defined.
Global Instance b_msg_dec : EqDecision b_msg. Proof. solve_decision. Defined.
Global Instance c_msg_dec : EqDecision c_msg. Proof. solve_decision. Defined.
Global Instance d_msg_dec : EqDecision d_msg. Proof. solve_decision. Defined.
Global Instance e_msg_dec : EqDecision e_msg. Proof. solve_decision. Defined.
Global Instance f_msg_dec : EqDecision f_msg. Proof. solve_decision. Defined.
Global Instance g_msg_dec : EqDecision g_msg. Proof. solve_decision. Defined.
Global Instance u_msg_dec : EqDecision u_msg. Proof. solve_decision. Defined.

(** How something ends: [Ok], [Err], a panic *)
Inductive outcome := OkEnd | ErrEnd | PanicEnd.
Global Instance outcome_dec : EqDecision outcome. Proof. solve_decision. Defined.
(** The main thread, context.rs:269-318 [execute] *)
Inductive client_phase :=
  | CStart                          (* in [start_evaluation] *)
  | CEval (missing : option nat)    (* in the loop of [ExecutorClient::evaluate] *)
  | CLeft (r : outcome)             (* [evaluate] returned [Ok] or [Err] *)
  | CTaken                          (* the sender of the ctrl-c handler was dropped; before the post hook *)
  | CJoin (r : outcome)             (* in [defer!]: joining the executor thread *)
  | CStopUI (r : outcome)           (* before the send of StopUI *)
  | CJoinUI (r : outcome)           (* joining the UI thread *)
  | CExit (r : outcome)
  | CAbort.                         (* a panic during a panic *)
(** The thread that asks for the status *)
Inductive poller_phase := PNone | PRun | PExited | PJoined.
(** The client manager; the flag: it still has the sender of the scheduler; [MLeave]: it told the error of the DAG, and did
    not yet leave its loop *)
Inductive manager_phase := MRun (has_scheduler : bool) | MLeave (has_scheduler : bool) | MEnded | MPanicked.
(** The scheduler: does it know the client, did it send EvaluationDone *)
Inductive sched_phase := SchRun (known done : bool) | SchEnded.
(** A worker: the sandbox thread is not running, is running the job, waits the list of files *)
Inductive worker_phase := WIdle | WBusy | WWait.
Record worker := Worker { w_phase : worker_phase; w_in : list f_msg; w_out : list g_msg; w_exiting : bool; w_gone : bool }.

Record life := Life {
  cl : client_phase; slot : bool (* the sender of the ctrl-c handler is there *); poller : poller_phase;
  qa : list a_msg; mg : manager_phase; qb : list b_msg;
  sc : sched_phase; work : nat (* jobs that can still be assigned *); qc : list c_msg; qd : list d_msg;
  wm : bool (* the worker manager is running *); qe : list e_msg; ws : list worker;
  ui : bool (* the UI thread is running *); qu : list u_msg; shown : list u_msg;
  sent : list u_msg (* all the messages sent to the UI, for the specification *)
}.
Definition set_client (c : client_phase) (s : life) : life :=
  Life c (slot s) (poller s) (qa s) (mg s) (qb s) (sc s) (work s) (qc s) (qd s) (wm s) (qe s) (ws s) (ui s) (qu s) (shown s) (sent s).
Definition set_slot (b : bool) (s : life) : life :=
  Life (cl s) b (poller s) (qa s) (mg s) (qb s) (sc s) (work s) (qc s) (qd s) (wm s) (qe s) (ws s) (ui s) (qu s) (shown s) (sent s).
Definition set_poller (p : poller_phase) (s : life) : life :=
  Life (cl s) (slot s) p (qa s) (mg s) (qb s) (sc s) (work s) (qc s) (qd s) (wm s) (qe s) (ws s) (ui s) (qu s) (shown s) (sent s).
Definition set_qa (q : list a_msg) (s : life) : life :=
  Life (cl s) (slot s) (poller s) q (mg s) (qb s) (sc s) (work s) (qc s) (qd s) (wm s) (qe s) (ws s) (ui s) (qu s) (shown s) (sent s).
Definition set_manager (m : manager_phase) (s : life) : life :=
  Life (cl s) (slot s) (poller s) (qa s) m (qb s) (sc s) (work s) (qc s) (qd s) (wm s) (qe s) (ws s) (ui s) (qu s) (shown s) (sent s).
Definition set_qb (q : list b_msg) (s : life) : life :=
  Life (cl s) (slot s) (poller s) (qa s) (mg s) q (sc s) (work s) (qc s) (qd s) (wm s) (qe s) (ws s) (ui s) (qu s) (shown s) (sent s).
Definition set_sched (x : sched_phase) (s : life) : life :=
  Life (cl s) (slot s) (poller s) (qa s) (mg s) (qb s) x (work s) (qc s) (qd s) (wm s) (qe s) (ws s) (ui s) (qu s) (shown s) (sent s).
Definition set_work (n : nat) (s : life) : life :=
  Life (cl s) (slot s) (poller s) (qa s) (mg s) (qb s) (sc s) n (qc s) (qd s) (wm s) (qe s) (ws s) (ui s) (qu s) (shown s) (sent s).
Definition set_qc (q : list c_msg) (s : life) : life :=
  Life (cl s) (slot s) (poller s) (qa s) (mg s) (qb s) (sc s) (work s) q (qd s) (wm s) (qe s) (ws s) (ui s) (qu s) (shown s) (sent s).
Definition set_qd (q : list d_msg) (s : life) : life :=
  Life (cl s) (slot s) (poller s) (qa s) (mg s) (qb s) (sc s) (work s) (qc s) q (wm s) (qe s) (ws s) (ui s) (qu s) (shown s) (sent s).
Definition set_wm (b : bool) (s : life) : life :=
  Life (cl s) (slot s) (poller s) (qa s) (mg s) (qb s) (sc s) (work s) (qc s) (qd s) b (qe s) (ws s) (ui s) (qu s) (shown s) (sent s).
Definition set_qe (q : list e_msg) (s : life) : life :=
  Life (cl s) (slot s) (poller s) (qa s) (mg s) (qb s) (sc s) (work s) (qc s) (qd s) (wm s) q (ws s) (ui s) (qu s) (shown s) (sent s).
Definition set_ws (q : list worker) (s : life) : life :=
  Life (cl s) (slot s) (poller s) (qa s) (mg s) (qb s) (sc s) (work s) (qc s) (qd s) (wm s) (qe s) q (ui s) (qu s) (shown s) (sent s).
(** [UIMessageSender::send] *)
Definition ui_send (l : list u_msg) (s : life) : life :=
  Life (cl s) (slot s) (poller s) (qa s) (mg s) (qb s) (sc s) (work s) (qc s) (qd s) (wm s) (qe s) (ws s) (ui s) (qu s ++ l) (shown s) (sent s ++ l).
(** context.rs:213-222: the UI thread handles a message *)
Definition ui_recv (m : u_msg) (rest : list u_msg) (s : life) : life :=
  Life (cl s) (slot s) (poller s) (qa s) (mg s) (qb s) (sc s) (work s) (qc s) (qd s) (wm s) (qe s) (ws s)
    (match m with UStop => false | _ => ui s end) rest (match m with UStop => shown s | _ => shown s ++ [m] end) (sent s).

(** The state when [execute] is called: all the threads are started, the [n] workers asked for a job. *)
Definition life_start (n jobs : nat) : life :=
  Life CStart true PNone [] (MRun true) [] (SchRun false false) jobs [] [] true [] (replicate n (Worker WIdle [] [GGet] false false)) true [] [] [].

Section life.
  (** Is there an executor thread (a local run); is the DAG accepted by [check_dag] *)
  Context (local valid : bool).

  (** The receiver of the messages of the client is alive. *)
  Definition manager_alive (s : life) : bool := match mg s with MRun _ | MLeave _ => true | _ => false end.
  (** Some sender of that channel is alive: the one of [evaluate], that of the poller, that of the ctrl-c handler. *)
  Definition client_sender_alive (s : life) : bool :=
    match cl s with CStart | CEval _ => true | _ => false end || match poller s with PRun => true | _ => false end || slot s.
  (** executor.rs:214-225: [Executor::run] joined the scheduler, the worker manager, the scheduler binder *)
  Definition run_ended (s : life) : bool := match sc s with SchEnded => true | _ => false end && negb (wm s) && bool_decide (qd s = []).
  (** local_executor.rs:113-122: and the workers *)
  Definition executor_ended (s : life) : bool := run_ended s && forallb w_gone (ws s).
  (** client.rs:91-97: the guard of [evaluate]: the poller is told to stop and joined; the send fails, and the guard
      panics, if the poller is gone: a panic while the thread is panicking aborts the program.  The result of [evaluate]
      is [r]. *)
  Definition leave (r : outcome) (s : life) : life :=
    match poller s with
    | PExited => set_client (match r with PanicEnd => CAbort | _ => CJoin PanicEnd end) (set_poller PJoined s)
    | _ => match r with
           | PanicEnd => set_client (CJoin PanicEnd) (set_poller PJoined s)
           | _ => set_client (CLeft r) (set_poller PJoined s)
           end
    end.
  (** executor.rs:332-461 [handle_client_messages]: one message; [k]: the files that are not in the store, [found]: the
      file that is asked is in the store *)
  Definition manager_msg (m : a_msg) (h : bool) (k : nat) (found : bool) (s : life) : life :=
    match m with
    | AEvaluate =>
      if valid then
        let s := set_qb (qb s ++ replicate k BAsk) s in
        if h then set_qc (qc s ++ [SEvaluate]) s else set_manager MPanicked s
      else
        set_manager (MLeave h) (set_qb (qb s ++ [BError]) s)
    | AProvide => if h then set_qc (qc s ++ [SFile]) s else set_manager MPanicked s
    | AAsk => set_qb (qb s ++ [if found then BFile else BError]) s
    | AStatus => if h then set_qc (qc s ++ [SStatus]) s else s
    | AStop => if h then set_manager (MRun false) (set_qc (qc s ++ [SDisconnect]) s) else s
    end.
  (** executor.rs:451-460, 183-197: the channel is closed, or the DAG is not valid *)
  Definition manager_end (h : bool) (s : life) : life :=
    set_manager MEnded (set_qc (qc s ++ (if h then [SDisconnect] else []) ++ [SExit]) s).
  (** scheduler.rs:250-306 [run], one message; [ns]: what it tells the client, [js]: the workers that get a job, [ks]: the
      workers whose job is killed *)
  Definition sched_msg (m : c_msg) (known done : bool) (ns : list d_msg) (js ks : list nat) (s : life) : life :=
    match m with
    | SExit => set_sched SchEnded (set_qe (qe s ++ [EExit]) s)
    | SDisconnect =>
      set_sched (SchRun false done) (set_qd (qd s ++ (if known && negb done then [DDone] else [])) (set_qe (qe s ++ map EKill ks) s))
    | _ =>
      let known := known || bool_decide (m = SEvaluate) in
      set_sched (SchRun known (done || bool_decide (DDone ∈ ns)))
        (set_work (work s - length js) (set_qd (qd s ++ ns) (set_qe (qe s ++ map EJob js) s)))
    end.
  Definition binder_msg (m : d_msg) : b_msg := match m with DNotify => BNotify | DFile => BFile | DDone => BDone end.
  Definition worker_send (m : f_msg) (w : nat) (s : life) : life :=
    set_ws (alter (fun x => Worker (w_phase x) (w_in x ++ [m]) (w_out x) (w_exiting x) (w_gone x)) w (ws s)) s.
  (** worker_manager.rs:74-126 [run], one message *)
  Definition wm_msg (m : e_msg) (s : life) : life :=
    match m with
    | EJob w => worker_send FWork w s
    | EKill w => worker_send FKill w s
    | EExit => set_wm false (set_ws (map (fun x => Worker (w_phase x) (w_in x ++ [FExit]) (w_out x) (w_exiting x) (w_gone x)) (ws s)) s)
    end.
  (** worker.rs:178-292 [work], one message *)
  Definition worker_msg (m : f_msg) (x : worker) : worker :=
    match m with
    | FWork => Worker (match w_phase x with WIdle => WBusy | p => p end) (w_in x) (w_out x) (w_exiting x) (w_gone x)
    | FKill => x
    | FExit => Worker (w_phase x) (w_in x) (w_out x) true (w_gone x)
    | FFiles => match w_phase x with WWait => Worker WIdle (w_in x) (w_out x ++ [GGet]) (w_exiting x) (w_gone x) | _ => x end
    end.
  Definition pop_in (x : worker) : worker := Worker (w_phase x) (drop 1 (w_in x)) (w_out x) (w_exiting x) (w_gone x).
  (** worker_manager.rs:131-231 [worker_thread], one message of the worker, if the scheduler is there *)
  Definition out_msg (m : g_msg) (x : worker) : worker :=
    Worker (w_phase x) (match m with GDone => w_in x ++ [FFiles] | GGet => w_in x end) (drop 1 (w_out x)) (w_exiting x) (w_gone x).

  (** What the callbacks send to the UI while the client handles a message *)
  Definition messages (l : list u_msg) : Prop := UStop ∉ l.

  (** A step of a thread of the program *)
  Inductive step : life -> life -> Prop :=
  (* client.rs:81, 212-255 *)
  | StStart s l : cl s = CStart -> manager_alive s = true -> messages l ->
      step s (ui_send l (set_client (CEval None) (set_poller PRun (set_qa (qa s ++ [AEvaluate]) s))))
  | StStartFail s r l : cl s = CStart -> r <> OkEnd -> messages l -> step s (ui_send l (leave r s))
  (* client.rs:100-207, the loop *)
  | StLoopEnd s : cl s = CEval (Some 0) -> step s (leave OkEnd s)
  | StAsk s m q : cl s = CEval m -> m <> Some 0 -> qb s = BAsk :: q ->
      step s (if manager_alive s then set_qa (qa s ++ [AProvide]) (set_qb q s) else leave ErrEnd (set_qb q s))
  | StFile s m q l : cl s = CEval m -> m <> Some 0 -> qb s = BFile :: q -> messages l ->
      step s (ui_send l (set_client (CEval (Nat.pred <$> m)) (set_qb q s)))
  | StNotify s m q l : cl s = CEval m -> m <> Some 0 -> qb s = BNotify :: q -> messages l -> step s (ui_send l (set_qb q s))
  | StError s m q : cl s = CEval m -> m <> Some 0 -> qb s = BError :: q ->
      step s (if manager_alive s then leave OkEnd (set_qa (qa s ++ [AStop]) (set_qb q s)) else leave ErrEnd (set_qb q s))
  | StDone s m q k l : cl s = CEval m -> m <> Some 0 -> qb s = BDone :: q -> messages l ->
      step s (ui_send l (if manager_alive s || bool_decide (k = 0) then set_client (CEval (Some k)) (set_qa (qa s ++ replicate k AAsk) (set_qb q s))
                         else leave ErrEnd (set_qb q s)))
  | StClosed s m : cl s = CEval m -> m <> Some 0 -> qb s = [] -> run_ended s = true -> manager_alive s = false -> step s (leave OkEnd s)
  (* a callback fails or panics, a file cannot be written *)
  | StFail s m b q r l : cl s = CEval m -> m <> Some 0 -> qb s = b :: q -> r <> OkEnd -> messages l -> step s (ui_send l (leave r (set_qb q s)))
  (* context.rs:302-311 *)
  | StTake s : cl s = CLeft OkEnd -> step s (set_client CTaken (set_slot false s))
  | StStop s : cl s = CLeft ErrEnd -> step s (set_client (CJoin ErrEnd) (if slot s && manager_alive s then set_qa (qa s ++ [AStop]) s else s))
  (* context.rs:313-317: the post hook *)
  | StPost s r l : cl s = CTaken -> messages l -> step s (ui_send l (set_client (CJoin r) s))
  (* context.rs:280-296 *)
  | StJoin s r : cl s = CJoin r -> (local = true -> executor_ended s = true) -> step s (set_client (CStopUI r) s)
  | StStopUI s r : cl s = CStopUI r -> step s (ui_send [UStop] (set_client (CJoinUI r) s))
  | StJoinUI s r : cl s = CJoinUI r -> ui s = false -> step s (set_client (CExit r) s)
  (* executor.rs *)
  | StManager s h m q k found : mg s = MRun h -> qa s = m :: q -> step s (manager_msg m h k found (set_qa q s))
  | StManagerEnd s h : mg s = MRun h -> qa s = [] -> client_sender_alive s = false -> step s (manager_end h s)
  | StManagerLeave s h : mg s = MLeave h -> step s (manager_end h s)
  | StSched s known done m q ns js ks : sc s = SchRun known done -> qc s = m :: q ->
      length js <= work s -> (known || bool_decide (m = SEvaluate) = false -> js = [] /\ DDone ∉ ns) ->
      step s (sched_msg m known done ns js ks (set_qc q s))
  | StBinder s d q : qd s = d :: q -> step s (set_qb (qb s ++ [binder_msg d]) (set_qd q s))
  | StWm s m q : wm s = true -> qe s = m :: q -> step s (wm_msg m (set_qe q s))
  (* worker.rs *)
  | StWorker s w x m q : ws s !! w = Some x -> w_in x = m :: q -> w_exiting x = false ->
      step s (set_ws (<[w := worker_msg m (pop_in x)]> (ws s)) s)
  (* worker.rs:383-489: the job ends *)
  | StJobEnd s w x : ws s !! w = Some x -> w_phase x = WBusy ->
      step s (set_ws (<[w := Worker WWait (w_in x) (w_out x ++ [GDone]) (w_exiting x) (w_gone x)]> (ws s)) s)
  (* worker.rs:285-288, 466-481: the sender of the list of files is dropped *)
  | StJobLeft s w x : ws s !! w = Some x -> w_phase x = WWait -> w_exiting x = true ->
      step s (set_ws (<[w := Worker WIdle (w_in x) (w_out x) true (w_gone x)]> (ws s)) s)
  | StGone s w x : ws s !! w = Some x -> w_phase x = WIdle -> w_exiting x = true -> w_gone x = false ->
      step s (set_ws (<[w := Worker WIdle (w_in x) (w_out x) true true]> (ws s)) s)
  (* worker_manager.rs:131-231 *)
  | StOut s w x m q : ws s !! w = Some x -> w_out x = m :: q -> sc s <> SchEnded ->
      step s (set_qc (qc s ++ [SWorker]) (set_ws (<[w := out_msg m x]> (ws s)) s))
  | StOutEnd s w x m q : ws s !! w = Some x -> w_out x = m :: q -> sc s = SchEnded ->
      step s (set_ws (<[w := Worker (w_phase x) (w_in (out_msg m x)) [] (w_exiting x) (w_gone x)]> (ws s)) s)
  (* context.rs:213-222 *)
  | StUi s m q : ui s = true -> qu s = m :: q -> step s (ui_recv m q s).

  (** What comes from outside: the clock of the poller (client.rs:277-290), ctrl-c (context.rs:236-243) *)
  Definition tick (s : life) : life := if manager_alive s then set_qa (qa s ++ [AStatus]) s else set_poller PExited s.
  Definition ctrl_c (s : life) : life := if slot s && manager_alive s then set_qa (qa s ++ [AStop]) s else s.
  Inductive event : life -> life -> Prop :=
  | EvTick s : poller s = PRun -> event s (tick s)
  | EvCtrlC s : event s (ctrl_c s).

  Inductive reachable (n jobs : nat) : life -> Prop :=
  | RStart : reachable n jobs (life_start n jobs)
  | RStep s s' : reachable n jobs s -> step s s' -> reachable n jobs s'
  | REvent s s' : reachable n jobs s -> event s s' -> reachable n jobs s'.
End life.
