(** * ServerModel: task-maker-exec/src/executor.rs and task-maker-exec/src/worker_manager.rs

    Definitions only.

    - The thread that serves a client, the thread that serves a worker, the scheduler binder and the worker manager are
      each a function of what they receive.  What they do is a trace of events.
    - Whether a send succeeds, the content of the file store and the success of storing a file are decided by oracles that
      see the trace so far.
    - The two threads that serve a connection have one writer each, and another thread (the binder, the worker manager)
      writes on the same connection: the items of the two writers are interleaved ([merged] in ServerSpec.v). *)
From stdpp Require Export gmap.
From Verif Require Export DagModel ProtoModel.
From Verif Require Import CheckDagModel SchedModel ClientModel WorkerModel.

(** proto.rs:48-68 [ExecutorClientMessage] *)
Inductive client_in :=
  | CIEvaluate (d : dag) (cb : watch_set)
  | CIProvideFile (f : file_uuid) (k : store_key)
  | CIAskFile (f : file_uuid) (k : store_key) (success : bool)
  | CIStatus
  | CIStop.
(** proto.rs:97-115 [WorkerClientMessage] *)
Inductive worker_in :=
  | WIGetWork
  | WIDone (results : list exec_result) (outs : gmap file_uuid store_key)
  | WIProvideFile (f : file_uuid) (k : store_key)
  | WIAskFile (k : store_key).

(** What a thread that serves a connection does: it receives a message of type [I], looks for a file in the store,
    stores a file, sends an item to the peer (messages of type [O]), to the scheduler, to the worker manager. *)
Inductive xevent (I O : Type) :=
  | XRecv (m : I)
  | XHas (k : store_key) (found : bool)
  | XStored (f : file_uuid) (k : store_key) (chunks : list bytes)
  | XOut (i : chan O)
  | XSched (m : sched_msg)
  | XExit                                   (* [SchedulerInMessage::Exit] *)
  | XGone (w : worker_uuid).                (* [WorkerManagerInMessage::WorkerDisconnected] *)
Arguments XRecv {I O} _. Arguments XHas {I O} _ _. Arguments XStored {I O} _ _ _. Arguments XOut {I O} _.
Arguments XSched {I O} _. Arguments XExit {I O}. Arguments XGone {I O} _.

(** A computation: the trace grows; it returns a value, an error ([inr false]) or panics ([inr true]). *)
Section monad.
  Context {I O : Type}.
  Definition xm (A : Type) : Type := list (xevent I O) -> list (xevent I O) * (A + bool).
  Definition xret {A} (a : A) : xm A := fun tr => (tr, inl a).
  Definition xbind {A B} (x : xm A) (f : A -> xm B) : xm B :=
    fun tr => match x tr with (tr, inl a) => f a tr | (tr, inr e) => (tr, inr e) end.
  Definition xpanic {A} : xm A := fun tr => (tr, inr true).
  Definition xerror {A} : xm A := fun tr => (tr, inr false).
  Fixpoint xiter {A} (f : A -> xm unit) (l : list A) : xm unit :=
    match l with [] => xret tt | x :: l => xbind (f x) (fun _ => xiter f l) end.

  (** The oracles: a send to the peer, to the scheduler succeeds; a file is in the store; a file can be stored. *)
  Record oracles := Oracles {
    o_up : list (xevent I O) -> bool;
    o_sched : list (xevent I O) -> bool;
    o_has : list (xevent I O) -> store_key -> bool;
    o_store : list (xevent I O) -> store_key -> bool
  }.
  Definition xemit (e : xevent I O) : xm unit := fun tr => (tr ++ [e], inl tt).
  Definition xout (o : oracles) (i : chan O) : xm unit := fun tr => if o_up o tr then (tr ++ [XOut i], inl tt) else (tr, inr false).
  Definition xsched (o : oracles) (m : sched_msg) : xm unit := fun tr => if o_sched o tr then (tr ++ [XSched m], inl tt) else (tr, inr false).
  (** Whether it succeeded; never an error. *)
  Definition xtry (x : xm unit) : xm bool :=
    fun tr => match x tr with (tr, inl _) => (tr, inl true) | (tr, inr _) => (tr, inl false) end.
  Definition xhas (o : oracles) (k : store_key) : xm bool := fun tr => let b := o_has o tr k in (tr ++ [XHas k b], inl b).
  Definition xstore (o : oracles) (f : file_uuid) (k : store_key) (chunks : list bytes) : xm unit :=
    fun tr => if o_store o tr k then (tr ++ [XStored f k chunks], inl tt) else (tr, inr false).
End monad.
Arguments xm : clear implicits. Arguments oracles : clear implicits.
Notation "x <~ m ; k" := (xbind m (fun x => k)) (at level 100, m at next level, right associativity).

Section server.
  (** The chunks in which a file of the store is read. *)
  Context (content : store_key -> list bytes).

  (** ** The thread that serves a client *)
  Section client.
    (** The iteration order of the groups in [check_dag]; the client. *)
    Context (ord : list group_uuid -> list group_uuid) (c : client_uuid) (o : oracles client_in server_msg).
    Local Notation xm := (xm client_in server_msg).

    (** executor.rs:361-380: the provided files: those in the store are returned, the others are asked. *)
    Fixpoint ask_provided (l : list (file_uuid * store_key)) : xm (list (file_uuid * store_key)) :=
      match l with
      | [] => xret []
      | (f, k) :: l =>
        b <~ xhas o k;
        if (b : bool) then (r <~ ask_provided l; xret ((f, k) :: r))
        else (_ <~ xout o (Msg (SAskFile f)); ask_provided l)
      end.
    (** What to do after a message: go on, leave the loop, receive a file; [sched]: the scheduler was not taken by [Stop]. *)
    Inductive next := Next (sched : bool) | Leave (sched : bool) | Receive (f : file_uuid) (k : store_key) (sched : bool).
    (** executor.rs:339-451: one message *)
    Definition client_message (m : client_in) (sched : bool) : xm next :=
      match m with
      | CIEvaluate d cb =>
        match check_dag ord d cb with
        | Done _ =>
          ready <~ ask_provided (d_provided d);
          if sched then
            (_ <~ xsched o (EvaluateDAG c d cb);
             _ <~ xiter (fun fk => xsched o (FileReady c fk.1 fk.2)) ready;
             xret (Next sched))
          else xerror
        | _ => _ <~ xout o (Msg (SError "invalid DAG")); xret (Leave sched)
        end
      | CIProvideFile f k => xret (Receive f k sched)
      | CIAskFile f k success =>
        b <~ xhas o k;
        if (b : bool) then
          (_ <~ xout o (Msg (SProvideFile f success)); _ <~ xiter (xout o) (send_file (content k)); xret (Next sched))
        else (_ <~ xout o (Msg (SError "Unknown file")); xret (Next sched))
      | CIStatus => if sched then (_ <~ xtry (xsched o (StatusRequest c)); xret (Next sched)) else xret (Next sched)
      | CIStop => if sched then (_ <~ xsched o (ClientDisconnected c); xret (Next false)) else xret (Next sched)
      end.
    (** executor.rs:453-460 *)
    Definition client_end (sched : bool) : xm unit := if sched then xsched o (ClientDisconnected c) else xret tt.
    (** executor.rs:335-461 [handle_client_messages].  [rx]: a file is being received (executor.rs:396-413 and the
        iterator of proto.rs:148-163); a failure of [store] is noticed at the end of the file. *)
    Fixpoint serve_client (items : list (chan client_in)) (rx : option (file_uuid * store_key * list bytes)) (sched : bool) : xm unit :=
      match items, rx with
      | Msg m :: items, None =>
        _ <~ xemit (XRecv m);
        n <~ client_message m sched;
        match n with
        | Next sched => serve_client items None sched
        | Leave sched => client_end sched
        | Receive f k sched => serve_client items (Some (f, k, [])) sched
        end
      | Raw b :: items, Some (f, k, chunks) =>
        if bool_decide (b = []) then
          (_ <~ xstore o f k chunks;
           if sched then (_ <~ xsched o (FileReady c f k); serve_client items None sched) else xerror)
        else serve_client items (Some (f, k, chunks ++ [b])) sched
      | _, None => client_end sched           (* executor.rs:338: [recv] fails *)
      | _, Some _ => xpanic                   (* proto.rs:155 *)
      end.
    (** executor.rs:212-233: the body of the thread; [unwrap] panics on an error. *)
    Definition client_thread (long_running : bool) (items : list (chan client_in)) : xm unit :=
      fun tr => match serve_client items None true tr with
                | (tr, inl _) => if long_running then (tr, inl tt) else (tr ++ [XExit], inl tt)
                | (tr, inr _) => (tr, inr true)
                end.
  End client.

  (** ** The thread that serves a worker *)
  Section worker.
    (** The iteration order of the outputs; the worker. *)
    Context (ord : gmap file_uuid store_key -> list (file_uuid * store_key)) (w : worker_uuid) (o : oracles worker_in wmsg).
    Local Notation xm := (xm worker_in wmsg).

    (** worker_manager.rs:163-173 *)
    Fixpoint split_outputs (l : list (file_uuid * store_key)) (handlers : gmap file_uuid store_key) (missing : list file_uuid)
        : xm (gmap file_uuid store_key * list file_uuid) :=
      match l with
      | [] => xret (handlers, missing)
      | (f, k) :: l =>
        b <~ xhas o k;
        if (b : bool) then split_outputs l (<[f := k]> handlers) missing else split_outputs l handlers (missing ++ [f])
      end.
    (** worker_manager.rs:207-224 *)
    Definition worker_end : xm unit := _ <~ xtry (xsched o (WorkerDisconnected w)); xemit (XGone w).
    (** Receiving the files of a completed job: the results, what is already there, how many files remain; and the file
        being received. *)
    Record collect := Collect {
      co_results : list exec_result;
      co_handlers : gmap file_uuid store_key;
      co_left : nat;
      co_rx : option (file_uuid * store_key * list bytes)
    }.
    Inductive wmode := WIdle | WCollect (x : collect).
    (** worker_manager.rs:127-225 [worker_thread] *)
    Fixpoint serve_worker (items : list (chan worker_in)) (mode : wmode) : xm unit :=
      match mode, items with
      | WIdle, Msg m :: items =>
        _ <~ xemit (XRecv m);
        match m with
        | WIGetWork =>
          ok <~ xtry (xsched o (WorkerConnected w));
          if (ok : bool) then serve_worker items WIdle else worker_end
        | WIAskFile k =>
          b <~ xhas o k;
          if (b : bool) then
            (_ <~ xout o (Msg (WProvideFile k)); _ <~ xiter (xout o) (send_file (content k)); serve_worker items WIdle)
          else xerror
        | WIProvideFile _ _ => xpanic
        | WIDone rs outs =>
          r <~ split_outputs (ord outs) ∅ [];
          _ <~ xout o (Msg (WAskFiles r.2));
          match r.2 with
          | [] => ok <~ xtry (xsched o (WorkerResult w rs r.1)); if (ok : bool) then serve_worker items WIdle else worker_end
          | _ => serve_worker items (WCollect (Collect rs r.1 (length r.2) None))
          end
        end
      | WIdle, _ => worker_end
      | WCollect (Collect rs handlers n None), Msg m :: items =>
        _ <~ xemit (XRecv m);
        match m with
        | WIProvideFile f k => serve_worker items (WCollect (Collect rs handlers n (Some (f, k, []))))
        | _ => xerror
        end
      | WCollect (Collect _ _ _ None), _ => xerror
      | WCollect (Collect rs handlers n (Some (f, k, chunks))), Raw b :: items =>
        if bool_decide (b = []) then
          (_ <~ xstore o f k chunks;
           let handlers := <[f := k]> handlers in
           if decide (n = 1) then (ok <~ xtry (xsched o (WorkerResult w rs handlers)); if (ok : bool) then serve_worker items WIdle else worker_end)
           else serve_worker items (WCollect (Collect rs handlers (n - 1) None)))
        else serve_worker items (WCollect (Collect rs handlers n (Some (f, k, chunks ++ [b]))))
      | WCollect (Collect _ _ _ (Some _)), _ => xpanic
      end.
  End worker.

  (** ** The scheduler binder (executor.rs:258-321 [handle_scheduler_messages])
      The packets are sent to the client they are paired with; to a client that left nothing arrives. *)
  Record packet (M : Type) := Packet { pk_msg : M; pk_file : option (list bytes) }.
  Arguments Packet {M} _ _. Arguments pk_msg {M} _. Arguments pk_file {M} _.
  Notation ready_files := (gmap client_uuid (list (file_uuid * store_key * bool))).
  (** [clients]: those in the map; they are never removed *)
  Definition binder_step (clients : gset client_uuid) (c : client_uuid) (m : client_msg) (ready : ready_files)
      : list (client_uuid * packet server_msg) * ready_files :=
    if decide (c ∈ clients) then
      match m with
      | MStarted e w => ([(c, Packet (SNotifyStart e w) None)], ready)
      | MSkipped e => ([(c, Packet (SNotifySkip e) None)], ready)
      | MDone e r => ([(c, Packet (SNotifyDone e r) None)], ready)
      | MFile f k successful urgent =>
        if urgent then ([(c, Packet (SProvideFile f successful) (Some (content k)))], ready)
        else ([], <[c := default [] (ready !! c) ++ [(f, k, successful)]]> ready)
      | MStatus _ _ _ => ([(c, Packet SStatus None)], ready)
      | MEvaluationDone => ([(c, Packet (SDone (default [] (ready !! c))) None)], delete c ready)
      end
    else ([], ready).
  Fixpoint binder (clients : gset client_uuid) (l : list (client_uuid * client_msg)) (ready : ready_files)
      : list (client_uuid * packet server_msg) :=
    match l with
    | [] => []
    | (c, m) :: l => let '(out, ready) := binder_step clients c m ready in out ++ binder clients l ready
    end.
End server.
Arguments Packet {M} _ _. Arguments pk_msg {M} _. Arguments pk_file {M} _.

(** ** The worker manager (worker_manager.rs:78-124 [run]) *)
Inductive manager_in :=
  | IConnected (w : worker_uuid) | IDisconnected (w : worker_uuid) | IJob (w : worker_uuid) (j : wjob)
  | IStopJob (w : worker_uuid) (g : group_uuid) | IExit.
Inductive mevent := MERecv (m : manager_in) | MESpawn (w : worker_uuid) | MESend (w : worker_uuid) (m : wmsg).
(** [up]: sending to a worker succeeds *)
Definition manager_send (up : list mevent -> worker_uuid -> bool) (w : worker_uuid) (m : wmsg) (ws : gset worker_uuid) (tr : list mevent)
    : list mevent * (gset worker_uuid + bool) :=
  if up tr w then (tr ++ [MESend w m], inl ws) else (tr, inr false).
Definition manager_step (up : list mevent -> worker_uuid -> bool) (m : manager_in) (ws : gset worker_uuid) (tr : list mevent)
    : list mevent * (gset worker_uuid + bool) :=
  match m with
  | IConnected w => if decide (w ∈ ws) then (tr, inl ws) else (tr ++ [MESpawn w], inl ({[w]} ∪ ws))
  | IDisconnected w => if decide (w ∈ ws) then (tr, inl (ws ∖ {[w]})) else (tr, inr false)
  | IJob w j => if decide (w ∈ ws) then manager_send up w (WWork j) ws tr else (tr, inl ws)
  | IStopJob w g => if decide (w ∈ ws) then manager_send up w (WKillJob g) ws tr else (tr, inl ws)
  | IExit => (tr, inl ws)
  end.
(** The loop; at its end the workers that can be reached are told to exit.  [true]: it ended well. *)
Definition manager_exit (up : list mevent -> worker_uuid -> bool) (ws : gset worker_uuid) (tr : list mevent) : list mevent :=
  fold_left (fun tr w => if up tr w then tr ++ [MESend w WExit] else tr) (elements ws) tr.
Fixpoint manager_run (up : list mevent -> worker_uuid -> bool) (ms : list manager_in) (ws : gset worker_uuid) (tr : list mevent)
    : list mevent * bool :=
  match ms with
  | [] => (manager_exit up ws tr, true)
  | IExit :: _ => (manager_exit up ws (tr ++ [MERecv IExit]), true)
  | m :: ms =>
    match manager_step up m ws (tr ++ [MERecv m]) with
    | (tr, inl ws) => manager_run up ms ws tr
    | (tr, inr _) => (tr, false)
    end
  end.
