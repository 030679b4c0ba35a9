(** * SchedSpec: vocabulary of the statements about the scheduler

    Everything here is about the data types, the messages and the trace ([s_log]); none of the
    functions of scheduler.rs is used, except [handle] in the definition of [reachable]. *)
From Verif Require Export SchedModel CheckDagSpec.

(** ** Assumptions on the environment *)

(** Hash map orders are permutations; a cache hit has a result per execution, a file for each output, and is
    flagged as cached (proved of the cache model: see CacheProps.v). *)
Record env_ok (env : env) : Prop := {
  eo_ord : forall n A (l : list A), e_ord env n A l ≡ₚ l;
  eo_cache : forall n gr handles results outs, e_cache env n gr handles = Some (results, outs) ->
    length results = length (g_execs gr) /\
    (forall f, f ∈ group_outputs gr -> is_Some (outs !! f)) /\
    (forall r, r ∈ results -> res_was_cached r = true)
}.

(** A DAG as built by the API and accepted by the validation (C01/C02). *)
Definition valid_dag (d : dag) : Prop := dag_maps_ok d /\ well_formed d.

(** What the scheduler expects from the executor and the worker manager: DAGs are validated
    (executor.rs:349-360), client identifiers are not reused, a worker that has a job does not ask for work
    (worker.rs, C35) and a worker that sends the right number of results sends all the outputs. *)
Definition msg_ok (s : state) (m : sched_msg) : Prop :=
  match m with
  | EvaluateDAG c d cb => valid_dag d /\ (forall d' cb', ERecv (EvaluateDAG c d' cb') ∉ s_log s)
  | WorkerConnected w => forall job, s_workers s !! w <> Some (Some job)
  | WorkerResult w results outs => forall c g cl gr,
      s_workers s !! w = Some (Some (c, g)) -> s_clients s !! c = Some cl ->
      (g, gr) ∈ d_groups (cl_dag cl) -> length (g_execs gr) = length results ->
      forall f, f ∈ group_outputs gr -> is_Some (outs !! f)
  | _ => True
  end.

(** States reachable by handling a sequence of messages. *)
Inductive reachable (env : env) : state -> Prop :=
  | reach_init : reachable env init_state
  | reach_step s m s' : reachable env s -> msg_ok s m -> handle env m s = ROk s' -> reachable env s'.

(** The message being handled. *)
Definition last_recv (log : list event) : option sched_msg :=
  fold_left (fun a ev => match ev with ERecv m => Some m | _ => a end) log None.

(** ** Where a group is *)
Definition waiting (cl : client) (g : group_uuid) : Prop := is_Some (cl_missing cl !! g).
Definition queued (s : state) (c : client_uuid) (g : group_uuid) : Prop :=
  exists en, en ∈ s_queue s /\ en_client en = c /\ en_group en = g.
Definition working (s : state) (w : worker_uuid) (c : client_uuid) (g : group_uuid) : Prop :=
  s_workers s !! w = Some (Some (c, g)).
Definition queue_count (c : client_uuid) (g : group_uuid) (q : list entry) : nat :=
  length (filter (fun en => en_client en = c /\ en_group en = g) q).

(** A group is queued once per execution when it has no input ([handle_evaluate_dag]); [single] groups are the
    ones queued once. *)
Definition single (gr : group) : Prop := group_deps gr <> [] \/ length (g_execs gr) = 1.

(** The configuration of the DAG allows results of [gr] to come from the cache. *)
Definition cache_allowed (d : dag) (gr : group) : Prop :=
  match cfg_cache_mode (d_config d) with
  | CacheEverything => True
  | CacheNothing => False
  | CacheExcept tags => forall e rest t, g_execs gr = e :: rest -> e_tag e = Some t -> t ∉ tags
  end.

(** ** The life of a group, read off the trace *)
Inductive phase :=
  | Fresh                      (* never sent to a worker *)
  | Run (w : worker_uuid)      (* sent to [w] *)
  | Back                       (* its worker was lost *)
  | Completed                  (* by a worker or from the cache *)
  | Skipped
  | Bad.                       (* none of the allowed sequences *)
Definition phase_step (c : client_uuid) (g : group_uuid) (p : phase) (ev : event) : phase :=
  match ev with
  | EJob w c' gr _ =>
      if decide (c' = c /\ g_uuid gr = g) then
        match p with Fresh | Back => Run w | _ => Bad end
      else p
  | ELost c' g' w =>
      if decide (c' = c /\ g' = g) then
        match p with Run w' => if decide (w = w') then Back else Bad | _ => Bad end
      else p
  | ECompleted c' g' from_cache _ _ =>
      if decide (c' = c /\ g' = g) then
        match p, from_cache with Run _, false => Completed | Fresh, true | Back, true => Completed | _, _ => Bad end
      else p
  | ESkip c' g' =>
      if decide (c' = c /\ g' = g) then match p with Fresh => Skipped | _ => Bad end else p
  | _ => p
  end.
Definition phase_of (c : client_uuid) (g : group_uuid) (log : list event) : phase :=
  fold_left (phase_step c g) log Fresh.
Definition finished (p : phase) : Prop := p = Completed \/ p = Skipped.

(** ** Files *)
(** [f] was announced by the client, or written by a group all whose executions succeeded. *)
Definition ok_file (d : dag) (c : client_uuid) (f : file_uuid) (log : list event) : Prop :=
  (exists k, ERecv (FileReady c f k) ∈ log) \/
  (exists g gr fc results outs, (g, gr) ∈ d_groups d /\ f ∈ group_outputs gr /\
     ECompleted c g fc results outs ∈ log /\ forall r, r ∈ results -> res_status r = Success).
(** [f] is an output of a group that failed or was skipped. *)
Definition bad_file (d : dag) (c : client_uuid) (f : file_uuid) (log : list event) : Prop :=
  exists g gr, (g, gr) ∈ d_groups d /\ f ∈ group_outputs gr /\
    (ESkip c g ∈ log \/
     exists fc results outs r, ECompleted c g fc results outs ∈ log /\ r ∈ results /\ res_status r <> Success).
(** [k] is the content announced by the client for [f], or produced for it by a completed group of [c]. *)
Definition provenance (c : client_uuid) (f : file_uuid) (k : store_key) (log : list event) : Prop :=
  ERecv (FileReady c f k) ∈ log \/
  exists g fc results outs, ECompleted c g fc results outs ∈ log /\ outs !! f = Some k.

(** ** Counting messages *)
Definition is_done_msg (c : client_uuid) (e : exec_uuid) (ev : event) : bool :=
  match ev with ESend c' (MDone e' _) => bool_decide (c' = c /\ e' = e) | _ => false end.
Definition is_skip_msg (c : client_uuid) (e : exec_uuid) (ev : event) : bool :=
  match ev with ESend c' (MSkipped e') => bool_decide (c' = c /\ e' = e) | _ => false end.
Definition is_start_msg (c : client_uuid) (e : exec_uuid) (ev : event) : bool :=
  match ev with ESend c' (MStarted e' _) => bool_decide (c' = c /\ e' = e) | _ => false end.
Definition is_completed (c : client_uuid) (g : group_uuid) (ev : event) : bool :=
  match ev with ECompleted c' g' _ _ _ => bool_decide (c' = c /\ g' = g) | _ => false end.
Definition is_skip (c : client_uuid) (g : group_uuid) (ev : event) : bool :=
  match ev with ESkip c' g' => bool_decide (c' = c /\ g' = g) | _ => false end.
Definition is_job (c : client_uuid) (g : group_uuid) (ev : event) : bool :=
  match ev with EJob _ c' gr _ => bool_decide (c' = c /\ g_uuid gr = g) | _ => false end.
Definition count (p : event -> bool) (log : list event) : nat := length (List.filter p log).

(** ** History *)
(** The client announced [f] after its submission. *)
Definition announced (c : client_uuid) (f : file_uuid) (log : list event) : Prop :=
  exists l1 l2 l3 d cb k, log = l1 ++ ERecv (EvaluateDAG c d cb) :: l2 ++ ERecv (FileReady c f k) :: l3.
(** The group was completed or skipped. *)
Definition settled (c : client_uuid) (g : group_uuid) (log : list event) : Prop :=
  (exists fc results outs, ECompleted c g fc results outs ∈ log) \/ ESkip c g ∈ log.

(** What the past [l] must contain when [ev] happens. *)
Definition justified (l : list event) (ev : event) : Prop :=
  match ev with
  | ERecv _ => True
  | EJob w c gr keys => exists d cb, ERecv (EvaluateDAG c d cb) ∈ l /\ (g_uuid gr, gr) ∈ d_groups d /\
      (forall f, f ∈ group_deps gr -> ok_file d c f l /\ exists k, keys !! f = Some k /\ provenance c f k l) /\
      (forall f k, keys !! f = Some k -> f ∈ group_deps gr)
  | ECompleted c g fc results outs => exists d cb gr, ERecv (EvaluateDAG c d cb) ∈ l /\ (g, gr) ∈ d_groups d /\
      length results = length (g_execs gr) /\ (forall f, f ∈ group_outputs gr -> is_Some (outs !! f)) /\
      (forall f, f ∈ group_deps gr -> ok_file d c f l) /\
      (if fc : bool then cache_allowed d gr /\ forall r, r ∈ results -> res_was_cached r = true
       else exists w keys, last_recv l = Some (WorkerResult w results outs) /\ EJob w c gr keys ∈ l)
  | ECacheInsert c gr handles results => exists outs,
      ECompleted c (g_uuid gr) false results outs ∈ l /\
      (forall r, r ∈ results -> is_internal_error (res_status r) = false) /\
      (forall f, f ∈ group_outputs gr -> handles !! f = outs !! f) /\
      (forall f, f ∈ group_deps gr -> is_Some (handles !! f)) /\
      (forall f k, handles !! f = Some k -> provenance c f k l)
  | ESkip c g => exists d cb gr f, ERecv (EvaluateDAG c d cb) ∈ l /\ (g, gr) ∈ d_groups d /\
      f ∈ group_deps gr /\ bad_file d c f l
  | ELost c g w => last_recv l = Some (WorkerDisconnected w) /\ exists gr keys, EJob w c gr keys ∈ l /\ g_uuid gr = g
  | EStop w g => exists c gr keys, last_recv l = Some (ClientDisconnected c) /\ EJob w c gr keys ∈ l /\ g_uuid gr = g
  | ESend c (MStatus _ _ _) => last_recv l = Some (StatusRequest c)
  | ESend c MEvaluationDone => exists d cb, ERecv (EvaluateDAG c d cb) ∈ l /\
      (last_recv l = Some (ClientDisconnected c) \/ forall g gr, (g, gr) ∈ d_groups d -> settled c g l)
  | ESend c (MStarted e w) => exists d cb gr x keys, ERecv (EvaluateDAG c d cb) ∈ l /\ (g_uuid gr, gr) ∈ d_groups d /\
      EJob w c gr keys ∈ l /\ x ∈ g_execs gr /\ e_uuid x = e /\ e ∈ w_executions cb
  | ESend c (MDone e r) => exists d cb gr x fc results outs, ERecv (EvaluateDAG c d cb) ∈ l /\ (g_uuid gr, gr) ∈ d_groups d /\
      ECompleted c (g_uuid gr) fc results outs ∈ l /\ (x, r) ∈ zip (g_execs gr) results /\ e_uuid x = e /\ e ∈ w_executions cb
  | ESend c (MSkipped e) => exists d cb gr x, ERecv (EvaluateDAG c d cb) ∈ l /\ (g_uuid gr, gr) ∈ d_groups d /\
      ESkip c (g_uuid gr) ∈ l /\ x ∈ g_execs gr /\ e_uuid x = e /\ e ∈ w_executions cb
  | ESend c (MFile f k ok urgent) => exists d cb, ERecv (EvaluateDAG c d cb) ∈ l /\ f ∈ w_files cb /\
      urgent = bool_decide (f ∈ w_urgent cb) /\ provenance c f k l /\
      (if ok then ok_file d c f l else bad_file d c f l)
  end.
Definition trace_justified (log : list event) : Prop := forall l1 ev l2, log = l1 ++ ev :: l2 -> justified l1 ev.

(** Every result of a worker without internal errors is cached, right after the notifications. *)
Definition cached_after (ev : event) (l : list event) : Prop :=
  match ev with
  | ECompleted c g false results outs =>
      (forall r, r ∈ results -> is_internal_error (res_status r) = false) ->
      exists sends gr handles rest, l = sends ++ ECacheInsert c gr handles results :: rest /\ g_uuid gr = g /\
        forall ev', ev' ∈ sends -> exists c' m, ev' = ESend c' m
  | _ => True
  end.
Definition trace_cached (log : list event) : Prop := forall l1 ev l2, log = l1 ++ ev :: l2 -> cached_after ev l2.

(** ** Continuations, failures *)
(** The state reached from [s] by handling some more messages. *)
Definition handled (env : env) (s s' : state) : Prop := exists m, msg_ok s m /\ handle env m s = ROk s'.
Definition continues (env : env) : state -> state -> Prop := rtc (handled env).

(** Number of workers whose current job is [g] of [c]. *)
Definition workers_on (c : client_uuid) (g : group_uuid) (s : state) : nat :=
  length (filter (fun wj => wj.2 = Some (c, g)) (map_to_list (s_workers s))).

(** A completed group some execution of which did not succeed. *)
Definition failed (c : client_uuid) (log : list event) (g : group_uuid) : Prop :=
  exists fc results outs r, ECompleted c g fc results outs ∈ log /\ r ∈ results /\ res_status r <> Success.
(** The groups that read, directly or through other such groups, an output of a failed group. *)
Inductive doomed (d : dag) (bad : group_uuid -> Prop) : group_uuid -> Prop :=
  | doomed_direct g gr h hr f : (g, gr) ∈ d_groups d -> f ∈ group_deps gr ->
      (h, hr) ∈ d_groups d -> f ∈ group_outputs hr -> bad h -> doomed d bad g
  | doomed_via g gr h hr f : (g, gr) ∈ d_groups d -> f ∈ group_deps gr ->
      (h, hr) ∈ d_groups d -> f ∈ group_outputs hr -> doomed d bad h -> doomed d bad g.

(** The client only announces files that it provides (executor.rs:362-388). *)
Definition announces_provided (d : dag) (c : client_uuid) (log : list event) : Prop :=
  forall f k, ERecv (FileReady c f k) ∈ log -> f ∈ (d_provided d).*1.
Definition all_single (d : dag) : Prop := forall g gr, (g, gr) ∈ d_groups d -> single gr.

(** The client an event is sent to or is about. *)
Definition concerns (c : client_uuid) (ev : event) : Prop :=
  match ev with
  | ESend c' (MStatus _ _ _) => False
  | ESend c' _ | EJob _ c' _ _ | ECacheInsert c' _ _ _ | ECompleted c' _ _ _ _ | ESkip c' _ | ELost c' _ _ => c' = c
  | ERecv _ | EStop _ _ => False
  end.

(** [a] is at least as urgent as [b]. *)
Definition urgent_le (b a : entry) : Prop :=
  (en_dag_prio b < en_dag_prio a)%Z \/ (en_dag_prio b = en_dag_prio a /\ (en_prio b <= en_prio a)%Z).
