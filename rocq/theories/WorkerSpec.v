(** * WorkerSpec: vocabulary of the properties C34-C37 *)
From Verif Require Export WorkerModel.

(** ** Projections of a trace *)
Definition is_work (e : wevent) : bool := match e with EvRecv (WWork _) => true | _ => false end.
Definition is_get_work (e : wevent) : bool := match e with EvGetWork => true | _ => false end.
Definition is_dropped (e : wevent) : bool := match e with EvDropped => true | _ => false end.
Definition is_start (e : wevent) : bool := match e with EvStart _ _ => true | _ => false end.
Definition is_done (e : wevent) : bool := match e with EvDone _ _ => true | _ => false end.
Definition count (p : wevent -> bool) (tr : list wevent) : nat := length (List.filter p tr).
Definition asked (e : wevent) : option store_key := match e with EvAsk k => Some k | _ => None end.
Definition got (e : wevent) : option store_key := match e with EvRecv (WProvideFile k) => Some k | _ => None end.
Definition started (e : wevent) : option (wjob * gmap file_uuid store_key) :=
  match e with EvStart j h => Some (j, h) | _ => None end.
Definition reported (e : wevent) : option nat := match e with EvReport i _ _ => Some i | _ => None end.
Definition stopped (e : wevent) : option nat := match e with EvStopKill i => Some i | _ => None end.

(** [b] is what happened since the last job was received. *)
Definition since_work (tr : list wevent) (j : wjob) (b : list wevent) : Prop :=
  exists a, tr = a ++ EvRecv (WWork j) :: b /\ Forall (fun e => is_work e = false) b.
(** [b] is what happened since the last start of a job. *)
Definition since_start (tr : list wevent) (j : wjob) (b : list wevent) : Prop :=
  exists a h, tr = a ++ EvStart j h :: b /\ Forall (fun e => is_start e = false) b.
(** The job that is being executed: started, and neither completed (new work is asked) nor dropped. *)
Definition running (tr : list wevent) : option wjob :=
  fold_left (fun r e => match e with EvStart j _ => Some j | EvGetWork | EvDropped => None | _ => r end) tr None.

(** What the server has to be told about an execution: the status is an internal error if a stream or the key of an output
    cannot be read. *)
Definition unreadable (e : execution) (lo : leftovers) : Prop := exists f, f ∈ outputs e /\ lo_file lo f = DUnreadable.
Definition final_result (e : execution) (r : sandbox_result) (lo : leftovers) (x : exec_result) : Prop :=
  let c := compute_execution_result e r lo in
  (unreadable e lo /\ x = with_status c (InternalError "Failed to get store key")) \/ (~ unreadable e lo /\ x = c).
(** The key told for an output. *)
Definition key_of (empty_key : store_key) (d : disk_file) : option store_key :=
  match d with DAbsent => Some empty_key | DUnreadable => None | DPresent k => Some k end.
