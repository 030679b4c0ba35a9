(** * ClientModel: task-maker-exec/src/client.rs, and the registration of the callbacks in task-maker-dag/src/dag.rs

    Definitions only.

    - Everything the client does that can be observed (files written, callbacks called, messages sent) is an event of a
      trace.  Whether an operation or a callback succeeds is decided by an oracle [ok] that sees the trace so far.
    - The status poller thread (client.rs:259-289) only sends [Status] messages and is left out; see ExecutorModel.v for
      the interleaving of writers.
    - Local file store lookups are a function [local]: the chunks in which the file is read, or [None] if absent.
    - The connection is the list of the items the server will send; its end is the closed connection. *)
From Verif Require Export ProtoModel.

(** proto.rs:71-95 [ExecutorServerMessage]; the content of the status is left out. *)
Inductive server_msg :=
  | SAskFile (f : file_uuid)
  | SProvideFile (f : file_uuid) (success : bool)
  | SNotifyStart (e : exec_uuid) (w : worker_uuid)
  | SNotifyDone (e : exec_uuid) (r : exec_result)
  | SNotifySkip (e : exec_uuid)
  | SError (msg : string)
  | SStatus
  | SDone (files : list (file_uuid * store_key * bool)).
(** proto.rs:48-68 [ExecutorClientMessage], as sent by the client; [Evaluate] carries the watch set. *)
Inductive to_server :=
  | CEvaluate (execs : gset exec_uuid) (files : gset file_uuid)
  | CProvideFile (f : file_uuid) (k : store_key)
  | CAskFile (f : file_uuid) (k : store_key) (success : bool)
  | CStop.

(** dag.rs: [WriteToCallback], [FileCallbacks] (the number of chunked callbacks), [ExecutionCallbacks] (the numbers of
    callbacks) *)
Record write_to := WriteTo { w_dest : path; w_executable : bool; w_allow_failure : bool }.
Record file_cb := FileCb { fc_write_to : option write_to; fc_content : option nat; fc_chunked : nat }.
Record exec_cb := ExecCb { xc_start : nat; xc_done : nat; xc_skip : nat }.
Definition no_file_cb : file_cb := FileCb None None 0.
Definition no_exec_cb : exec_cb := ExecCb 0 0 0.

(** ** Registration (dag.rs) *)
Record callbacks := Callbacks { cb_files : gmap file_uuid file_cb; cb_execs : gmap exec_uuid exec_cb }.
Definition file_cb_of (f : file_uuid) (c : callbacks) : file_cb := default no_file_cb (cb_files c !! f).
Definition exec_cb_of (e : exec_uuid) (c : callbacks) : exec_cb := default no_exec_cb (cb_execs c !! e).
Definition set_file_cb (f : file_uuid) (x : file_cb) (c : callbacks) : callbacks :=
  Callbacks (<[f := x]> (cb_files c)) (cb_execs c).
Definition set_exec_cb (e : exec_uuid) (x : exec_cb) (c : callbacks) : callbacks :=
  Callbacks (cb_files c) (<[e := x]> (cb_execs c)).
Inductive register_call :=
  | RWriteTo (f : file_uuid) (dest : path) (executable allow_failure : bool)
  | RContent (f : file_uuid) (limit : nat)
  | RChunked (f : file_uuid)
  | ROnStart (e : exec_uuid) | ROnDone (e : exec_uuid) | ROnSkip (e : exec_uuid).
(** dag.rs:175-273; [None] is the panic of [get_file_content] on a second callback. *)
Definition register (dry_run : bool) (r : register_call) (c : callbacks) : option callbacks :=
  match r with
  | RWriteTo f dest x a =>
    if dry_run then Some c
    else Some (set_file_cb f (FileCb (Some (WriteTo dest x a)) (fc_content (file_cb_of f c)) (fc_chunked (file_cb_of f c))) c)
  | RContent f limit =>
    match fc_content (file_cb_of f c) with
    | Some _ => None
    | None => Some (set_file_cb f (FileCb (fc_write_to (file_cb_of f c)) (Some limit) (fc_chunked (file_cb_of f c))) c)
    end
  | RChunked f =>
    Some (set_file_cb f (FileCb (fc_write_to (file_cb_of f c)) (fc_content (file_cb_of f c)) (S (fc_chunked (file_cb_of f c)))) c)
  | ROnStart e => let x := exec_cb_of e c in Some (set_exec_cb e (ExecCb (S (xc_start x)) (xc_done x) (xc_skip x)) c)
  | ROnDone e => let x := exec_cb_of e c in Some (set_exec_cb e (ExecCb (xc_start x) (S (xc_done x)) (xc_skip x)) c)
  | ROnSkip e => let x := exec_cb_of e c in Some (set_exec_cb e (ExecCb (xc_start x) (xc_done x) (S (xc_skip x))) c)
  end.
Fixpoint register_all (dry_run : bool) (rs : list register_call) (c : callbacks) : option callbacks :=
  match rs with
  | [] => Some c
  | r :: rs => match register dry_run r c with Some c => register_all dry_run rs c | None => None end
  end.

(** ** The trace *)
Inductive cevent :=
  | ECreate (dest : path) | EWrite (dest : path) (b : bytes) | EChmod (dest : path)
  | EChunk (f : file_uuid) (i : nat) (b : bytes)       (* the i-th chunked callback of the file *)
  | EContent (f : file_uuid) (b : bytes)
  | EStart (e : exec_uuid) (i : nat) (w : worker_uuid) (* the i-th callback of that kind of the execution *)
  | EDone (e : exec_uuid) (i : nat) (r : exec_result)
  | ESkip (e : exec_uuid) (i : nat)
  | EStatus
  | ESent (m : chan to_server).

(** A computation of the client: the trace grows; it returns a value, an error ([inr false]) or panics ([inr true]). *)
Definition cm (A : Type) : Type := list cevent -> list cevent * (A + bool).
Definition cret {A} (a : A) : cm A := fun tr => (tr, inl a).
Definition cbind {A B} (x : cm A) (f : A -> cm B) : cm B :=
  fun tr => match x tr with (tr, inl a) => f a tr | (tr, inr e) => (tr, inr e) end.
Notation "x <<- m ; k" := (cbind m (fun x => k)) (at level 100, m at next level, right associativity).
Definition cpanic {A} : cm A := fun tr => (tr, inr true).
Definition cerror {A} : cm A := fun tr => (tr, inr false).
Fixpoint citer {A} (f : A -> cm unit) (l : list A) : cm unit :=
  match l with [] => cret () | x :: l => (_ <<- f x; citer f l) end.

Section client.
  (** Success of an operation or callback; equality of canonical paths; existence of a destination; the local store. *)
  Context (ok : list cevent -> cevent -> bool).
  Context (same_path : path -> path -> bool).
  Context (dest_exists : list cevent -> path -> bool).
  Context (local : store_key -> option (list bytes)).

  Definition emit (e : cevent) : cm unit := fun tr => (tr ++ [e], if ok tr e then inl () else inr false).
  Definition emits (l : list cevent) : cm unit := citer emit l.

  (** client.rs:360-403: where the file is written, if it is *)
  Definition write_dest (c : file_cb) (success : bool) (hint : option path) : option path :=
    match fc_write_to c with
    | None => None
    | Some w =>
      if negb success && negb (w_allow_failure w) then None
      else match hint with
           | Some source => if same_path source (w_dest w) then None else Some (w_dest w)
           | None => Some (w_dest w)
           end
    end.
  (** client.rs:404-416: one chunk *)
  Definition chunk_events (u : file_uuid) (c : file_cb) (dest : option path) (b : bytes) : list cevent :=
    (match dest with Some d => [EWrite d b] | None => [] end) ++ map (fun i => EChunk u i b) (seq 0 (fc_chunked c)).
  Definition add_chunk (limit : nat) (buffer b : bytes) : bytes :=
    if bool_decide (length buffer < limit) then buffer ++ take (Nat.min (length b) (limit - length buffer)) b else buffer.
  Fixpoint chunk_loop (u : file_uuid) (c : file_cb) (dest : option path) (limit : nat) (chunks : list bytes) (buffer : bytes)
      : cm bytes :=
    match chunks with
    | [] => cret buffer
    | b :: chunks => (_ <<- emits (chunk_events u c dest b); chunk_loop u c dest limit chunks (add_chunk limit buffer b))
    end.
  (** client.rs:337-454 [process_provided_file]; [complete = false]: the iterator panics after [chunks]. *)
  Definition process_provided_file (cbs : gmap file_uuid file_cb) (u : file_uuid) (success : bool) (chunks : list bytes)
      (complete : bool) (hint : option path) : cm (gmap file_uuid file_cb) :=
    match cbs !! u with
    | None => if complete then cret cbs else cpanic
    | Some c =>
      let limit := default 0 (fc_content c) in
      let dest := write_dest c success hint in
      _ <<- emits (match dest with Some d => [ECreate d] | None => [] end);
      buffer <<- chunk_loop u c dest limit chunks [];
      _ <<- (if complete then cret () else cpanic);
      _ <<- emits (map (fun i => EChunk u i []) (seq 0 (fc_chunked c)));
      _ <<- (fun tr => match fc_write_to c with
                       | Some w => if w_executable w && dest_exists tr (w_dest w) then emit (EChmod (w_dest w)) tr else (tr, inl ())
                       | None => (tr, inl ())
                       end);
      _ <<- (match fc_content c with Some _ => emit (EContent u buffer) | None => cret () end);
      cret (<[u := FileCb (fc_write_to c) None (fc_chunked c)]> cbs)
    end.

  (** dag.rs [ProvidedFile]; for a local file the chunks read from it ([None]: it cannot be opened). *)
  Inductive provided_file :=
    | PLocal (k : store_key) (p : path) (chunks : option (list bytes))
    | PContent (k : store_key) (content : bytes).
  (** client.rs:215-257 [start_evaluation], [provided] in the order of the hash map *)
  Definition start_one (cbs : gmap file_uuid file_cb) (up : file_uuid * provided_file) : cm (gmap file_uuid file_cb) :=
    match up.2 with
    | PLocal _ p (Some chunks) => process_provided_file cbs up.1 true chunks true (Some p)
    | PLocal _ _ None => cerror
    | PContent _ content => process_provided_file cbs up.1 true [content] true None
    end.
  Fixpoint start_files (cbs : gmap file_uuid file_cb) (l : list (file_uuid * provided_file)) : cm (gmap file_uuid file_cb) :=
    match l with [] => cret cbs | up :: l => (cbs <<- start_one cbs up; start_files cbs l) end.
  Definition start_evaluation (c : callbacks) (provided : list (file_uuid * provided_file)) : cm callbacks :=
    cbs <<- start_files (cb_files c) provided;
    _ <<- emit (ESent (Msg (CEvaluate (dom (cb_execs c)) (dom (cb_files c)))));
    cret (Callbacks cbs (cb_execs c)).

  (** client.rs:295-323 [handle_server_ask_file]: indexing the map panics if the file is not provided. *)
  Fixpoint plook (u : file_uuid) (l : list (file_uuid * provided_file)) : option provided_file :=
    match l with [] => None | (v, p) :: l => if decide (u = v) then Some p else plook u l end.
  Definition handle_ask_file (provided : list (file_uuid * provided_file)) (u : file_uuid) : cm unit :=
    match plook u provided with
    | None => cpanic
    | Some (PLocal k p chunks) =>
      _ <<- emit (ESent (Msg (CProvideFile u k)));
      match chunks with
      | Some chunks => emits (map ESent (send_file chunks))
      | None => cerror
      end
    | Some (PContent k content) =>
      _ <<- emit (ESent (Msg (CProvideFile u k)));
      emits (map ESent (send_data content))
    end.

  (** The state of the loop, client.rs:97-99; the number of files still to be received is [None] before [Done]. *)
  Record cstate := CState { c_cbs : callbacks; c_missing : option nat }.
  Definition c_init (c : callbacks) : cstate := CState c None.
  (** client.rs:98 *)
  Definition c_waiting (s : cstate) : bool := bool_decide (0 < default 1 (c_missing s)).
  (** client.rs:162-203: the files listed by [Done]; the number of those asked. *)
  Fixpoint done_files (cbs : gmap file_uuid file_cb) (l : list (file_uuid * store_key * bool)) (missing : nat)
      : cm (gmap file_uuid file_cb * nat) :=
    match l with
    | [] => cret (cbs, missing)
    | (u, k, success) :: l =>
      match local k with
      | Some chunks => cbs <<- process_provided_file cbs u success chunks true None; done_files cbs l missing
      | None => _ <<- emit (ESent (Msg (CAskFile u k success))); done_files cbs l (S missing)
      end
    end.
  (** Draining the callbacks of one kind, client.rs:120-150. *)
  Definition drain (e : exec_uuid) (n : exec_cb -> nat) (clear : exec_cb -> exec_cb) (ev : nat -> cevent) (s : cstate) : cm cstate :=
    match cb_execs (c_cbs s) !! e with
    | None => cret s
    | Some x =>
      _ <<- emits (map ev (seq 0 (n x)));
      cret (CState (Callbacks (cb_files (c_cbs s)) (<[e := clear x]> (cb_execs (c_cbs s)))) (c_missing s))
    end.
  (** Why the loop ended: the condition became false, the server reported an error, or the connection was lost.  The
      function returns [Ok(())] in all the three cases (client.rs:152-158, 204-214). *)
  Inductive stop_reason := StopDone | StopError | StopClosed.
  (** One received message, client.rs:100-213: the new state and the remaining items. *)
  Definition handle_msg (provided : list (file_uuid * provided_file)) (m : server_msg) (items : list (chan server_msg)) (s : cstate)
      : cm (cstate * list (chan server_msg) + stop_reason) :=
    match m with
    | SAskFile u => _ <<- handle_ask_file provided u; cret (inl (s, items))
    | SProvideFile u success =>
      let missing := match c_missing s with Some n => Some (n - 1) | None => None end in
      let '(chunks, rest) := recv_file items in
      cbs <<- process_provided_file (cb_files (c_cbs s)) u success chunks (bool_decide (is_Some rest)) None;
      cret (inl (CState (Callbacks cbs (cb_execs (c_cbs s))) missing, default [] rest))
    | SNotifyStart e w =>
      s <<- drain e xc_start (fun x => ExecCb 0 (xc_done x) (xc_skip x)) (fun i => EStart e i w) s; cret (inl (s, items))
    | SNotifyDone e r =>
      s <<- drain e xc_done (fun x => ExecCb (xc_start x) 0 (xc_skip x)) (fun i => EDone e i r) s; cret (inl (s, items))
    | SNotifySkip e =>
      s <<- drain e xc_skip (fun x => ExecCb (xc_start x) (xc_done x) 0) (fun i => ESkip e i) s; cret (inl (s, items))
    | SError _ => _ <<- emit (ESent (Msg CStop)); cret (inr StopError)
    | SStatus => _ <<- emit EStatus; cret (inl (s, items))
    | SDone files =>
      r <<- done_files (cb_files (c_cbs s)) files 0;
      cret (inl (CState (Callbacks r.1 (cb_execs (c_cbs s))) (Some r.2), items))
    end.
  (** client.rs:97-216: the loop; fuel: more than the number of items is enough. *)
  Fixpoint client_loop (fuel : nat) (provided : list (file_uuid * provided_file)) (items : list (chan server_msg)) (s : cstate)
      : cm (option (cstate * list (chan server_msg) * stop_reason)) :=
    if negb (c_waiting s) then cret (Some (s, items, StopDone))
    else match fuel with
         | O => cret None
         | S fuel =>
           match items with
           | [] => cret (Some (s, [], StopClosed))
           | Raw _ :: items => cret (Some (s, items, StopClosed))
           | Msg m :: items =>
             r <<- handle_msg provided m items s;
             match r with
             | inl (s, items) => client_loop fuel provided items s
             | inr why => cret (Some (s, items, why))
             end
           end
         end.
  (** client.rs:71-217 [evaluate]: [inl] is [Ok(())]. *)
  Definition evaluate (c : callbacks) (provided : list (file_uuid * provided_file)) (items : list (chan server_msg))
      : cm (option (cstate * list (chan server_msg) * stop_reason)) :=
    c <<- start_evaluation c provided;
    client_loop (S (length items)) provided items (c_init c).
End client.
