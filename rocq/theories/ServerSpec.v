(** * ServerSpec: vocabulary of the properties C38, C57-C60 *)
From Verif Require Export ServerModel.
From Verif Require Import CheckDagModel SchedModel ClientModel WorkerModel.

(** ** Writers on one connection *)
(** The items (or the packets) of two writers, each in its order. *)
Inductive merged {A} : list A -> list A -> list A -> Prop :=
  | il_nil : merged [] [] []
  | il_left x a b l : merged a b l -> merged (x :: a) b (x :: l)
  | il_right x a b l : merged a b l -> merged a (x :: b) (x :: l).
(** What is sent for a packet: the message and, if there is one, the file (proto.rs:28-32). *)
Definition packet_items {M} (p : packet M) : list (chan M) :=
  Msg (pk_msg p) :: match pk_file p with Some chunks => send_file chunks | None => [] end.
(** A packet is well formed if exactly the messages that announce a file are followed by one; a chunk is not empty. *)
Definition packet_ok {M} (announces : M -> bool) (p : packet M) : Prop :=
  (announces (pk_msg p) = true <-> is_Some (pk_file p)) /\ forall chunks, pk_file p = Some chunks -> Forall (fun b => b <> []) chunks.
(** What the reader sees: messages, each followed by a file if it announces one; [false] if something else than expected
    arrives (an error or a panic of the reader). *)
Fixpoint read_packets {M} (announces : M -> bool) (items : list (chan M)) (rx : option (M * list bytes)) : list (packet M) * bool :=
  match items, rx with
  | [], None => ([], true)
  | Msg m :: items, None =>
    if announces m then read_packets announces items (Some (m, []))
    else let '(ps, ok) := read_packets announces items None in (Packet m None :: ps, ok)
  | Raw b :: items, Some (m, chunks) =>
    if bool_decide (b = []) then let '(ps, ok) := read_packets announces items None in (Packet m (Some chunks) :: ps, ok)
    else read_packets announces items (Some (m, chunks ++ [b]))
  | _, _ => ([], false)
  end.
Definition server_announces (m : server_msg) : bool := match m with SProvideFile _ _ => true | _ => false end.
Definition wmsg_announces (m : wmsg) : bool := match m with WProvideFile _ => true | _ => false end.
Definition client_announces (m : client_in) : bool := match m with CIProvideFile _ _ => true | _ => false end.

(** ** Projections of a trace *)
Section proj.
  Context {I O : Type}.
  Definition out_of (e : xevent I O) : option (chan O) := match e with XOut i => Some i | _ => None end.
  Definition sched_of (e : xevent I O) : option sched_msg := match e with XSched m => Some m | _ => None end.
  Definition stored_of (e : xevent I O) : option file_uuid := match e with XStored f _ _ => Some f | _ => None end.
End proj.
Definition is_disconnect (m : sched_msg) : bool := match m with ClientDisconnected _ => true | _ => false end.
Definition is_result (m : sched_msg) : bool := match m with WorkerResult _ _ _ => true | _ => false end.
Definition is_widone (e : xevent worker_in wmsg) : bool := match e with XRecv (WIDone _ _) => true | _ => false end.
Definition asked_file (e : xevent client_in server_msg) : option file_uuid := match e with XOut (Msg (SAskFile f)) => Some f | _ => None end.
(** The messages to one client. *)
Definition msgs_for (c : client_uuid) (l : list (client_uuid * client_msg)) : list client_msg :=
  omap (fun x => if decide (x.1 = c) then Some x.2 else None) l.
Definition packets_for (c : client_uuid) (l : list (client_uuid * packet server_msg)) : list (packet server_msg) :=
  omap (fun x => if decide (x.1 = c) then Some x.2 else None) l.
(** A file that is not sent at once, as it has to be listed in [Done]. *)
Definition listed (m : client_msg) : option (file_uuid * store_key * bool) :=
  match m with MFile f k successful false => Some (f, k, successful) | _ => None end.
(** The packet of a message that is sent at once. *)
Definition immediate (content : store_key -> list bytes) (m : client_msg) : option (packet server_msg) :=
  match m with
  | MStarted e w => Some (Packet (SNotifyStart e w) None)
  | MSkipped e => Some (Packet (SNotifySkip e) None)
  | MDone e r => Some (Packet (SNotifyDone e r) None)
  | MFile f k successful true => Some (Packet (SProvideFile f successful) (Some (content k)))
  | MFile _ _ _ false => None
  | MStatus _ _ _ => Some (Packet SStatus None)
  | MEvaluationDone => None
  end.
Definition is_done_packet (p : packet server_msg) : bool := match pk_msg p with SDone _ => true | _ => false end.

(** ** The worker and the thread that serves it
    What the worker puts on the connection for what it does (worker.rs); [chunks]: how the file is read. *)
Definition worker_items (chunks : store_key -> list bytes) (e : wevent) : list (chan worker_in) :=
  match e with
  | EvAsk k => [Msg (WIAskFile k)]
  | EvDone rs outs => [Msg (WIDone rs outs)]
  | EvProvide f k => Msg (WIProvideFile f k) :: send_file (chunks k)
  | EvGetWork => [Msg WIGetWork]
  | _ => []
  end.

(** The files of a completed job: what the store had, and what was received; [left] files are still to come. *)
Record collected (outs : gmap file_uuid store_key) (missing : list file_uuid) (handlers : gmap file_uuid store_key) (left : nat) (b : list (xevent worker_in wmsg)) : Prop := {
  cl_quiet : Forall (fun e => is_widone e = false /\ sched_of e = None) b;
  cl_asked : XOut (Msg (WAskFiles missing)) ∈ b;
  cl_left : length (omap stored_of b) + left = length missing;
  cl_nodup : NoDup missing;
  cl_missing : forall f, f ∈ missing -> is_Some (outs !! f);
  cl_all : forall f, is_Some (outs !! f) -> f ∈ missing \/ is_Some (handlers !! f);
  cl_stored : forall f, f ∈ omap stored_of b -> is_Some (handlers !! f);
  cl_origin : forall f k, handlers !! f = Some k -> (outs !! f = Some k /\ XHas k true ∈ b) \/ exists chunks, XStored f k chunks ∈ b
}.
(** ** The worker manager
    What may be sent to a worker after [a]. *)
Definition send_ok (a : list mevent) (w : worker_uuid) (m : wmsg) : Prop :=
  match m with
  | WWork j => exists a', a = a' ++ [MERecv (IJob w j)]
  | WKillJob g => exists a', a = a' ++ [MERecv (IStopJob w g)]
  | WExit => True
  | _ => False
  end.
