(** * StatusSpec: what the server knows, read off the messages it received and sent

    The vocabulary of C101.  None of the functions of scheduler.rs is used here: the folds below only look at
    the trace (the messages received, [ERecv], and the jobs sent, [EJob]). *)
From Verif Require Export SchedSpec.

(** What a worker is doing: connected and waiting for a job ([None]), or working on a group of a client.  A
    worker that sent its result is not connected until it asks for more work (GetWork comes right after). *)
Definition worker_map := gmap worker_uuid (option (client_uuid * group_uuid)).
Definition worker_event (m : worker_map) (ev : event) : worker_map :=
  match ev with
  | ERecv (WorkerConnected w) => <[w := None]> m
  | ERecv (WorkerDisconnected w) | ERecv (WorkerResult w _ _) => delete w m
  | EJob w c gr _ => <[w := Some (c, g_uuid gr)]> m
  | _ => m
  end.
Definition workers_after (log : list event) : worker_map := fold_left worker_event log ∅.

(** The clients that submitted an evaluation and have not left. *)
Definition client_event (C : gset client_uuid) (ev : event) : gset client_uuid :=
  match ev with
  | ERecv (EvaluateDAG c _ _) => {[c]} ∪ C
  | ERecv (ClientDisconnected c) => C ∖ {[c]}
  | _ => C
  end.
Definition clients_after (log : list event) : gset client_uuid := fold_left client_event log ∅.

(** What the answer must say of a worker: its job, if the client the job is for is still connected. *)
Definition reported_job (C : gset client_uuid) (job : option (client_uuid * group_uuid)) : option (client_uuid * group_uuid) :=
  match job with
  | Some (c, g) => if bool_decide (c ∈ C) then Some (c, g) else None
  | None => None
  end.
