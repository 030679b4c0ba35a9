(** * SchedModel: task-maker-exec/src/scheduler.rs

    Every handler of the scheduler as a function on its state.  Definitions only.

    - Channels: messages sent to the executor and to the worker manager are appended to [s_log] (sending
      never fails).  The log also records, for use in the statements only, the incoming
      message ([ERecv]) and four facts that are otherwise internal: a group was completed
      ([ECompleted]), skipped ([ESkip]), its worker was lost ([ELost]), its result was inserted in the
      cache ([ECacheInsert]).
    - [HashMap]/[HashSet] iteration order: [e_ord env n] is the order used by the n-th iteration.
    - The cache is an oracle: [e_cache env n g handles] is the reply to the n-th lookup.
    - File handles are their store keys.  Names, instants and descriptions are left out.
    - [BinaryHeap] is a list from which the maximum of the derived tuple order is removed. *)
From Verif Require Export DagModel CheckDagModel.

(** Result of a handler: a value, [bail!]/[?] error, panic, or exhaustion of the model's fuel. *)
Inductive res (A : Type) := ROk (a : A) | RBail | RPanic | RNoFuel.
Arguments ROk {A} _. Arguments RBail {A}. Arguments RPanic {A}. Arguments RNoFuel {A}.
Definition rbind {A B} (x : res A) (f : A -> res B) : res B :=
  match x with ROk a => f a | RBail => RBail | RPanic => RPanic | RNoFuel => RNoFuel end.
Notation "'let!' x := m 'in' k" := (rbind m (fun x => k))
  (at level 200, x name, m at level 100, k at level 200, right associativity).
Fixpoint rfold {A B} (f : B -> A -> res B) (l : list A) (b : B) : res B :=
  match l with [] => ROk b | x :: l => let! b' := f b x in rfold f l b' end.

(** scheduler.rs:87-122 [SchedulerExecutorMessageData]. [MStatus]: ready_execs, waiting_execs and, for
    every worker, its job if the client is still there. *)
Inductive client_msg :=
  | MStarted (e : exec_uuid) (w : worker_uuid)
  | MDone (e : exec_uuid) (r : exec_result)
  | MSkipped (e : exec_uuid)
  | MFile (f : file_uuid) (k : store_key) (successful urgent : bool)
  | MEvaluationDone
  | MStatus (ready waiting : nat) (workers : list (worker_uuid * option (client_uuid * group_uuid))).

(** scheduler.rs:35-82 [SchedulerInMessage], without [Exit] (the end of the run). *)
Inductive sched_msg :=
  | EvaluateDAG (c : client_uuid) (d : dag) (cb : watch_set)
  | ClientDisconnected (c : client_uuid)
  | FileReady (c : client_uuid) (f : file_uuid) (k : store_key)
  | WorkerResult (w : worker_uuid) (results : list exec_result) (outs : gmap file_uuid store_key)
  | WorkerConnected (w : worker_uuid)
  | WorkerDisconnected (w : worker_uuid)
  | StatusRequest (c : client_uuid).

Inductive event :=
  | ERecv (m : sched_msg)
  | ESend (c : client_uuid) (m : client_msg)
  | EJob (w : worker_uuid) (c : client_uuid) (g : group) (keys : gmap file_uuid store_key)
  | EStop (w : worker_uuid) (g : group_uuid)
  | ECacheInsert (c : client_uuid) (g : group) (handles : gmap file_uuid store_key) (results : list exec_result)
  | ECompleted (c : client_uuid) (g : group_uuid) (from_cache : bool) (results : list exec_result)
      (outs : gmap file_uuid store_key)
  | ESkip (c : client_uuid) (g : group_uuid)
  | ELost (c : client_uuid) (g : group_uuid) (w : worker_uuid).

(** scheduler.rs:218 the elements of [ready_execs]. *)
Record entry := Entry { en_dag_prio : Z; en_prio : Z; en_group : group_uuid; en_client : client_uuid }.
Global Instance entry_eq_dec : EqDecision entry.
Proof. solve_decision. Defined.

(** The derived lexicographic order of the tuple (UUID order = order of [positive]). *)
Definition entry_le (a b : entry) : bool :=
  if bool_decide (en_dag_prio a = en_dag_prio b) then
    if bool_decide (en_prio a = en_prio b) then
      if bool_decide (en_group a = en_group b) then bool_decide (en_client a <= en_client b)%positive
      else bool_decide (en_group a <= en_group b)%positive
    else bool_decide (en_prio a <= en_prio b)%Z
  else bool_decide (en_dag_prio a <= en_dag_prio b)%Z.

(** [BinaryHeap::pop]: the maximum, and the rest. *)
Fixpoint pop_max (q : list entry) : option (entry * list entry) :=
  match q with
  | [] => None
  | x :: q =>
    match pop_max q with
    | None => Some (x, [])
    | Some (m, r) => if entry_le x m then Some (m, x :: r) else Some (x, m :: r)
    end
  end.

(** execution.rs:39 *)
Definition HIGH_PRIORITY : Z := 1000000000000.

(** scheduler.rs:141-168 [SchedulerClientData] *)
Record client := Client {
  cl_dag : dag;
  cl_cb : watch_set;
  cl_input_of : gmap file_uuid (gset group_uuid);
  cl_ready : gset group_uuid;
  cl_running : gset group_uuid;
  cl_missing : gmap group_uuid (gset file_uuid);
  cl_handles : gmap file_uuid store_key
}.
Definition set_ready (x : gset group_uuid) (cl : client) : client :=
  Client (cl_dag cl) (cl_cb cl) (cl_input_of cl) x (cl_running cl) (cl_missing cl) (cl_handles cl).
Definition set_running (x : gset group_uuid) (cl : client) : client :=
  Client (cl_dag cl) (cl_cb cl) (cl_input_of cl) (cl_ready cl) x (cl_missing cl) (cl_handles cl).
Definition set_missing (x : gmap group_uuid (gset file_uuid)) (cl : client) : client :=
  Client (cl_dag cl) (cl_cb cl) (cl_input_of cl) (cl_ready cl) (cl_running cl) x (cl_handles cl).
Definition set_handles (x : gmap file_uuid store_key) (cl : client) : client :=
  Client (cl_dag cl) (cl_cb cl) (cl_input_of cl) (cl_ready cl) (cl_running cl) (cl_missing cl) x.

(** scheduler.rs:189-193 [is_done] *)
Definition is_done (cl : client) : bool :=
  bool_decide (cl_ready cl = ∅) && bool_decide (cl_running cl = ∅) && bool_decide (cl_missing cl = ∅).

(** scheduler.rs:206-225 [Scheduler]; [connected_workers] maps a worker to its current job. *)
Record state := State {
  s_queue : list entry;
  s_clients : gmap client_uuid client;
  s_workers : gmap worker_uuid (option (client_uuid * group_uuid));
  s_tick : nat;
  s_log : list event
}.
(** scheduler.rs:230-249 [Scheduler::new] *)
Definition init_state : state := State [] ∅ ∅ 0 [].

Definition set_queue (x : list entry) (s : state) : state :=
  State x (s_clients s) (s_workers s) (s_tick s) (s_log s).
Definition set_clients (x : gmap client_uuid client) (s : state) : state :=
  State (s_queue s) x (s_workers s) (s_tick s) (s_log s).
Definition set_workers (x : gmap worker_uuid (option (client_uuid * group_uuid))) (s : state) : state :=
  State (s_queue s) (s_clients s) x (s_tick s) (s_log s).
Definition tick (s : state) : state :=
  State (s_queue s) (s_clients s) (s_workers s) (S (s_tick s)) (s_log s).
Definition emit (l : list event) (s : state) : state :=
  State (s_queue s) (s_clients s) (s_workers s) (s_tick s) (s_log s ++ l).
Definition upd_client (c : client_uuid) (cl : client) (s : state) : state :=
  set_clients (<[c := cl]> (s_clients s)) s.

Record env := Env {
  e_ord : nat -> forall A : Type, list A -> list A;
  e_cache : nat -> group -> gmap file_uuid store_key ->
    option (list exec_result * gmap file_uuid store_key)
}.

(** The messages to the client about the watched executions of a group. *)
Definition watched (cb : watch_set) (e : exec_uuid) : bool := bool_decide (e ∈ w_executions cb).
Definition notify (c : client_uuid) (cb : watch_set) (mk : execution -> client_msg) (es : list execution) : list event :=
  map (fun e => ESend c (mk e)) (filter (fun e => watched cb (e_uuid e) = true) es).

(** scheduler.rs:644-672 [send_file] *)
Definition send_file (c : client_uuid) (f : file_uuid) (ok : bool) (s : state) : state :=
  match s_clients s !! c with
  | None => s
  | Some cl =>
    if bool_decide (f ∈ w_files (cl_cb cl)) then
      match cl_handles cl !! f with
      | None => s
      | Some k => emit [ESend c (MFile f k ok (bool_decide (f ∈ w_urgent (cl_cb cl))))] s
      end
    else s
  end.

(** scheduler.rs:539-553 [check_completion] *)
Definition check_completion (c : client_uuid) (s : state) : state :=
  match s_clients s !! c with
  | None => s
  | Some cl => if is_done cl then emit [ESend c MEvaluationDone] s else s
  end.

(** scheduler.rs:575-597: one iteration of the loop of [file_failed]; the second component is
    [failed_files]. *)
Definition skip_one (c : client_uuid) (st : state * list file_uuid) (g : group_uuid) : res (state * list file_uuid) :=
  let '(s, failed) := st in
  match s_clients s !! c with
  | None => RPanic
  | Some cl =>
    match cl_missing cl !! g with
    | None => ROk (s, failed)
    | Some _ =>
      match alookup g (d_groups (cl_dag cl)) with
      | None => RPanic
      | Some gr =>
        let s := upd_client c (set_missing (delete g (cl_missing cl)) cl) s in
        let s := emit (ESkip c g :: notify c (cl_cb cl) (fun e => MSkipped (e_uuid e)) (g_execs gr)) s in
        ROk (s, failed ++ group_outputs gr)
      end
    end
  end.

(** scheduler.rs:557-602 [file_failed].  The recursive calls are done only if [failed_files] is not
    empty, so the fuel is only consumed after a group has been skipped. *)
Fixpoint file_failed (env : env) (fuel : nat) (c : client_uuid) (f : file_uuid) (s : state) : res state :=
  let s := send_file c f false s in
  match s_clients s !! c with
  | None => ROk s
  | Some cl =>
    match cl_input_of cl !! f with
    | None => ROk s
    | Some gs =>
      let l := e_ord env (s_tick s) _ (elements gs) in
      let! sf := rfold (skip_one c) l (tick s, []) in
      let '(s, failed) := sf in
      match failed with
      | [] => ROk s
      | _ => match fuel with
             | 0 => RNoFuel
             | S fuel => rfold (fun s f => file_failed env fuel c f s) failed s
             end
      end
    end
  end.

(** scheduler.rs:817-874 [assign_jobs]: one worker.  An empty queue is the [break]. *)
Definition assign_one (s : state) (w : worker_uuid) : res state :=
  match s_workers s !! w with
  | None | Some (Some _) => ROk s
  | Some None =>
    match pop_max (s_queue s) with
    | None => ROk s
    | Some (en, q) =>
      let c := en_client en in
      let g := en_group en in
      let s := set_workers (<[w := Some (c, g)]> (s_workers s)) (set_queue q s) in
      match s_clients s !! c with
      | None => ROk s
      | Some cl =>
        let cl := set_running ({[g]} ∪ cl_running cl) (set_ready (cl_ready cl ∖ {[g]}) cl) in
        match alookup g (d_groups (cl_dag cl)) with
        | None => RPanic
        | Some gr =>
          let! keys := rfold (fun (m : gmap file_uuid store_key) f =>
            match cl_handles cl !! f with
            | None => RPanic                       (* "Unknown file key of .." *)
            | Some k => ROk (<[f := k]> m)
            end) (group_deps gr) ∅ in
          ROk (emit (EJob w c gr keys :: notify c (cl_cb cl) (fun e => MStarted (e_uuid e) w) (g_execs gr))
                (upd_client c cl s))
        end
      end
    end
  end.
Definition assign_jobs (env : env) (s : state) : res state :=
  rfold assign_one (e_ord env (s_tick s) _ (map_to_list (s_workers s)).*1) (tick s).

(** scheduler.rs:622-637: one iteration of the loop of [file_success]. *)
Definition enable_one (c : client_uuid) (f : file_uuid) (s : state) (g : group_uuid) : res state :=
  match s_clients s !! c with
  | None => RPanic
  | Some cl =>
    match alookup g (d_groups (cl_dag cl)) with
    | None => RPanic
    | Some gr =>
      match cl_missing cl !! g with
      | None => ROk s
      | Some files =>
        let files := files ∖ {[f]} in
        if bool_decide (files = ∅) then
          ROk (set_queue (Entry HIGH_PRIORITY (group_priority gr) g c :: s_queue s)
                (upd_client c (set_ready ({[g]} ∪ cl_ready cl) (set_missing (delete g (cl_missing cl)) cl)) s))
        else ROk (upd_client c (set_missing (<[g := files]> (cl_missing cl)) cl) s)
      end
    end
  end.

(** scheduler.rs:606-641 [file_success]; [sc] is [schedule_cached]. *)
Definition file_success (env : env) (sc : state -> res state) (c : client_uuid) (f : file_uuid) (s : state) : res state :=
  let s := send_file c f true s in
  match s_clients s !! c with
  | None => ROk s
  | Some cl =>
    match cl_input_of cl !! f with
    | None => ROk s
    | Some gs =>
      let l := e_ord env (s_tick s) _ (elements gs) in
      let! s := rfold (enable_one c f) l (tick s) in
      let! s := sc s in
      assign_jobs env s
    end
  end.

(** scheduler.rs:733-756 [cache_execution].  The local [file_keys] is computed (and may panic) but
    is otherwise unused. *)
Definition cache_execution (c : client_uuid) (gr : group) (outs : gmap file_uuid store_key)
    (results : list exec_result) (s : state) : res state :=
  match s_clients s !! c with
  | None => ROk s
  | Some cl =>
    if bool_decide (Forall (fun f => is_Some (cl_handles cl !! f)) (group_deps gr)) then
      if bool_decide (Forall (fun f => is_Some (outs !! f)) (group_outputs gr)) then
        ROk (emit [ECacheInsert c gr (cl_handles cl) results] s)
      else RPanic
    else RPanic
  end.

(** scheduler.rs:691-705: the notifications and the new handles ([outs ∪ handles]: the new ones win). *)
Definition notify_done (c : client_uuid) (cb : watch_set) (es : list execution) (results : list exec_result) : list event :=
  map (fun er => ESend c (MDone (e_uuid er.1) er.2))
    (filter (fun er => watched cb (e_uuid er.1) = true) (zip es results)).
Definition complete (c : client_uuid) (cl : client) (gr : group) (results : list exec_result)
    (outs : gmap file_uuid store_key) (from_cache : bool) (s : state) : state :=
  upd_client c (set_handles (outs ∪ cl_handles cl) cl)
    (emit (ECompleted c (g_uuid gr) from_cache results outs :: notify_done c (cl_cb cl) (g_execs gr) results) s).

(** Fuel: number of queued plus number of waiting groups. *)
Definition mu (s : state) : nat :=
  length (s_queue s) + map_fold (fun _ cl n => size (cl_missing cl) + n) 0 (s_clients s).

(** scheduler.rs:677-730 [exec_completed]; [sc] is [schedule_cached]. *)
Definition exec_completed (env : env) (sc : state -> res state) (c : client_uuid) (gr : group)
    (results : list exec_result) (outs : gmap file_uuid store_key) (from_cache : bool) (s : state) : res state :=
  match s_clients s !! c with
  | None => ROk s
  | Some cl =>
    let s := complete c cl gr results outs from_cache s in
    let successful := forallb (fun r => is_success (res_status r)) results in
    let internal_error := existsb (fun r => is_internal_error (res_status r)) results in
    let! s := if negb from_cache && negb internal_error then cache_execution c gr outs results s else ROk s in
    let! s :=
      if successful then rfold (fun s f => file_success env sc c f s) (group_outputs gr) s
      else rfold (fun s f => file_failed env (mu s) c f s) (group_outputs gr) s in
    sc s
  end.

(** scheduler.rs:807-814 [is_cacheable], with execution_group.rs:98-106 [tag] (the tag of the first execution). *)
Definition group_tag (gr : group) : res (option string) :=
  match g_execs gr with [] => RPanic | e :: _ => ROk (e_tag e) end.
Definition is_cacheable (gr : group) (mode : cache_mode) : res bool :=
  let! tag := group_tag gr in
  ROk (match mode, tag with
       | CacheExcept set, Some t => negb (bool_decide (t ∈ set))
       | _, _ => true
       end).

(** scheduler.rs:761-796: the loop of [schedule_cached] over the queue: (state, not_cached, cached). *)
Record hit := Hit { h_client : client_uuid; h_group : group; h_results : list exec_result;
                    h_outs : gmap file_uuid store_key }.
Definition collect_one (env : env) (st : state * list entry * list hit) (en : entry) : res (state * list entry * list hit) :=
  let '(s, nc, hits) := st in
  match s_clients s !! en_client en with
  | None => ROk (s, nc, hits)
  | Some cl =>
    match cfg_cache_mode (d_config (cl_dag cl)) with
    | CacheNothing => ROk (s, en :: nc, hits)
    | mode =>
      match alookup (en_group en) (d_groups (cl_dag cl)) with
      | None => RPanic
      | Some gr =>
        let en' := Entry (en_dag_prio en) (en_prio en) (g_uuid gr) (en_client en) in
        let! b := is_cacheable gr mode in
        if negb b then ROk (s, en' :: nc, hits)
        else match e_cache env (s_tick s) gr (cl_handles cl) with
             | Some (results, outs) =>
               ROk (upd_client (en_client en) (set_ready (cl_ready cl ∖ {[g_uuid gr]}) cl) (tick s), nc,
                    hits ++ [Hit (en_client en) gr results outs])
             | None => ROk (tick s, en' :: nc, hits)
             end
      end
    end
  end.

(** scheduler.rs:760-804 [schedule_cached].  Fuel is only consumed when there was a hit. *)
Fixpoint schedule_cached (env : env) (fuel : nat) (s : state) : res state :=
  let! st := rfold (collect_one env) (e_ord env (s_tick s) _ (s_queue s)) (tick s, [], []) in
  let '(s, nc, hits) := st in
  let s := set_queue nc s in
  match hits with
  | [] => ROk s
  | _ => match fuel with
         | 0 => RNoFuel
         | S fuel =>
           rfold (fun s h => exec_completed env (schedule_cached env fuel) (h_client h) (h_group h)
                               (h_results h) (h_outs h) true s) hits s
         end
  end.

(** [schedule_cached] with enough fuel. *)
Definition sc_top (env : env) (s : state) : res state := schedule_cached env (mu s) s.

(** scheduler.rs:321-338: one group of the DAG in [handle_evaluate_dag]: client data and pushed entries. *)
Definition submit_one (c : client_uuid) (prio : Z) (st : client * list entry) (kg : group_uuid * group) : client * list entry :=
  let '(cl, q) := st in
  let gr := kg.2 in
  let g := g_uuid gr in
  let deps := group_deps gr in
  let io := fold_left (fun m f => <[f := {[g]} ∪ default ∅ (m !! f)]> m) deps (cl_input_of cl) in
  let missing : gset file_uuid := list_to_set deps ∪ default ∅ (cl_missing cl !! g) in
  if bool_decide (missing = ∅) then
    (Client (cl_dag cl) (cl_cb cl) io ({[g]} ∪ cl_ready cl) (cl_running cl) (delete g (cl_missing cl)) (cl_handles cl),
     map (fun e => Entry prio (e_priority e) g c) (g_execs gr) ++ q)
  else
    (Client (cl_dag cl) (cl_cb cl) io (cl_ready cl) (cl_running cl) (<[g := missing]> (cl_missing cl)) (cl_handles cl), q).

(** scheduler.rs:310-347 [handle_evaluate_dag] *)
Definition new_client (d : dag) (cb : watch_set) : client := Client d cb ∅ ∅ ∅ ∅ ∅.
Definition handle_evaluate_dag (env : env) (c : client_uuid) (d : dag) (cb : watch_set) (s : state) : res state :=
  let '(cl, q) := fold_left (submit_one c (cfg_priority (d_config d))) (d_groups d) (new_client d cb, s_queue s) in
  let s := upd_client c cl (set_queue q s) in
  let s := check_completion c s in
  let! s := sc_top env s in
  assign_jobs env s.

(** scheduler.rs:350-364 [handle_file_ready] *)
Definition handle_file_ready (env : env) (c : client_uuid) (f : file_uuid) (k : store_key) (s : state) : res state :=
  match s_clients s !! c with
  | None => ROk s
  | Some cl =>
    let s := upd_client c (set_handles (<[f := k]> (cl_handles cl)) cl) s in
    let! s := file_success env (sc_top env) c f s in
    ROk (check_completion c s)
  end.

(** scheduler.rs:367-414 [handle_worker_result] *)
Definition handle_worker_result (env : env) (w : worker_uuid) (results : list exec_result)
    (outs : gmap file_uuid store_key) (s : state) : res state :=
  match s_workers s !! w with
  | None => ROk s
  | Some job =>
    let s := set_workers (delete w (s_workers s)) s in
    match job with
    | None => ROk s
    | Some (c, g) =>
      match s_clients s !! c with
      | None => let! s := assign_jobs env s in ROk (check_completion c s)
      | Some cl =>
        match alookup g (d_groups (cl_dag cl)) with
        | None => RPanic
        | Some gr =>
          if bool_decide (length (g_execs gr) = length results) then
            let s := upd_client c (set_running (cl_running cl ∖ {[g]}) cl) s in
            let! s := exec_completed env (sc_top env) c gr results outs false s in
            let! s := assign_jobs env s in
            ROk (check_completion c s)
          else RBail
        end
      end
    end
  end.

(** scheduler.rs:417-429 [handle_worker_connected] *)
Definition handle_worker_connected (env : env) (w : worker_uuid) (s : state) : res state :=
  assign_jobs env (set_workers (<[w := None]> (s_workers s)) s).

(** scheduler.rs:432-451 [handle_worker_disconnected] *)
Definition handle_worker_disconnected (w : worker_uuid) (s : state) : res state :=
  match s_workers s !! w with
  | None => ROk s
  | Some job =>
    let s := set_workers (delete w (s_workers s)) s in
    match job with
    | None => ROk s
    | Some (c, g) =>
      match s_clients s !! c with
      | None => ROk s
      | Some cl =>
        match alookup g (d_groups (cl_dag cl)) with
        | None => RPanic
        | Some gr =>
          ROk (emit [ELost c g w]
            (set_queue (Entry HIGH_PRIORITY (group_priority gr) g c :: s_queue s)
              (upd_client c (set_running (cl_running cl ∖ {[g]}) (set_ready ({[g]} ∪ cl_ready cl) cl)) s)))
        end
      end
    end
  end.

(** scheduler.rs:454-492 [handle_client_disconnected] *)
Definition handle_client_disconnected (env : env) (c : client_uuid) (s : state) : res state :=
  let s := match s_clients s !! c with
           | Some cl => if is_done cl then s else emit [ESend c MEvaluationDone] s
           | None => s
           end in
  let s := set_clients (delete c (s_clients s)) s in
  let s := set_queue (filter (fun en => is_Some (s_clients s !! en_client en)) (s_queue s)) s in
  let ws := e_ord env (s_tick s) _ (map_to_list (s_workers s)) in
  ROk (emit (ws ≫= fun wj => match wj.2 with
                              | Some (owner, g) => if bool_decide (owner = c) then [EStop wj.1 g] else []
                              | None => []
                              end) (tick s)).

(** scheduler.rs:495-536 [handle_status_request] *)
Definition handle_status_request (env : env) (c : client_uuid) (s : state) : res state :=
  let ready := map_fold (fun _ cl n => size (cl_ready cl) + n) 0 (s_clients s) in
  let waiting := map_fold (fun _ cl n => size (cl_missing cl) + n) 0 (s_clients s) in
  let ws := e_ord env (s_tick s) _ (map_to_list (s_workers s)) in
  let! l := rfold (fun acc wj =>
    match wj.2 with
    | None => ROk (acc ++ [(wj.1, None)])
    | Some (owner, g) =>
      match s_clients s !! owner with
      | None => ROk (acc ++ [(wj.1, None)])
      | Some cl => match alookup g (d_groups (cl_dag cl)) with
                   | None => RPanic
                   | Some _ => ROk (acc ++ [(wj.1, Some (owner, g))])
                   end
      end
    end) ws [] in
  ROk (emit [ESend c (MStatus ready waiting l)] (tick s)).

(** scheduler.rs:253-307 [run]: one message, and a sequence of messages. *)
Definition handle (env : env) (m : sched_msg) (s : state) : res state :=
  let s := emit [ERecv m] s in
  match m with
  | EvaluateDAG c d cb => handle_evaluate_dag env c d cb s
  | ClientDisconnected c => handle_client_disconnected env c s
  | FileReady c f k => handle_file_ready env c f k s
  | WorkerResult w r o => handle_worker_result env w r o s
  | WorkerConnected w => handle_worker_connected env w s
  | WorkerDisconnected w => handle_worker_disconnected w s
  | StatusRequest c => handle_status_request env c s
  end.
Definition run (env : env) (ms : list sched_msg) (s : state) : res state := rfold (fun s m => handle env m s) ms s.
