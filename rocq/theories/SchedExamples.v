(** * SchedExamples: concrete runs of the scheduler: the hypotheses of SchedProps.v are met, and the parts of
    the English claims that are false of the code *)
From Verif Require Import CheckDagProofs CheckDagProofs2 CheckDagProps SchedSpec SchedSteps SchedProps.

(** ** Running a list of messages while checking [msg_ok] *)
Definition dag_okb (d : dag) : bool :=
  bool_decide (NoDup (d_provided d).*1) && bool_decide (NoDup (d_groups d).*1) &&
  forallb (fun kg => bool_decide (g_uuid kg.2 = kg.1)) (d_groups d) &&
  match check_dag (fun l => l) d (WatchSet [] [] []) with Done _ => true | _ => false end.
Lemma dag_okb_valid d : dag_okb d = true -> valid_dag d.
Proof.
  unfold dag_okb. rewrite !andb_true_iff, !bool_decide_eq_true. intros (((H1&H2)&H3)&H4). split.
  - split; [done|]. split; [done|]. intros k g Hin. rewrite forallb_forall in H3.
    specialize (H3 (k, g) (proj1 (elem_of_list_In _ _) Hin)). by apply bool_decide_eq_true in H3.
  - destruct (check_dag _ _ _) as [[]| | |] eqn:E; try done.
    by destruct (C01_accepted_is_well_formed (fun l => l) d _ H2 (fun _ => reflexivity _) E).
Qed.
Definition msg_okb (s : state) (m : sched_msg) : bool :=
  match m with
  | EvaluateDAG c d cb => dag_okb d && forallb (fun ev => match ev with ERecv (EvaluateDAG c' _ _) => bool_decide (c' <> c) | _ => true end) (s_log s)
  | WorkerConnected w => match s_workers s !! w with Some (Some _) => false | _ => true end
  | WorkerResult w results outs =>
    match s_workers s !! w with
    | Some (Some (c, g)) =>
      match s_clients s !! c with
      | Some cl => forallb (fun kg => forallb (fun f => bool_decide (is_Some (outs !! f))) (group_outputs kg.2))
                     (filter (fun kg => kg.1 = g) (d_groups (cl_dag cl)))
      | None => true
      end
    | _ => true
    end
  | _ => true
  end.
Lemma msg_okb_ok s m : msg_okb s m = true -> msg_ok s m.
Proof.
  destruct m as [c d cb|c|c f k|w results outs|w|w|c]; simpl; try done.
  - rewrite andb_true_iff. intros [H1 H2]. split; [by apply dag_okb_valid|]. intros d' cb' Hin. rewrite forallb_forall in H2.
    specialize (H2 _ (proj1 (elem_of_list_In _ _) Hin)). simpl in H2. by apply bool_decide_eq_true in H2.
  - intros H c g cl gr Hw Hc Hg _ f Hf. rewrite Hw, Hc in H. rewrite forallb_forall in H.
    assert (Hin : (g, gr) ∈ filter (fun kg => kg.1 = g) (d_groups (cl_dag cl))) by (by apply elem_of_list_filter).
    specialize (H _ (proj1 (elem_of_list_In _ _) Hin)). simpl in H. rewrite forallb_forall in H.
    specialize (H _ (proj1 (elem_of_list_In _ _) Hf)). by apply bool_decide_eq_true in H.
  - intros H job Hw. by rewrite Hw in H.
Qed.
Fixpoint checked_run (env : env) (ms : list sched_msg) (s : state) : option state :=
  match ms with
  | [] => Some s
  | m :: ms => if msg_okb s m then match handle env m s with ROk s' => checked_run env ms s' | _ => None end else None
  end.
Lemma checked_run_reachable env ms s s' : reachable env s -> checked_run env ms s = Some s' -> reachable env s'.
Proof.
  revert s. induction ms as [|m ms IH]; simpl; intros s Hr; [by intros [= <-]|].
  destruct (msg_okb s m) eqn:Em; [|done]. destruct (handle env m s) as [s1| | |] eqn:Eh; try done. intros H.
  eapply IH; [|exact H]. eapply reach_step; [exact Hr|by apply msg_okb_ok|exact Eh].
Qed.
Definition final (env : env) (ms : list sched_msg) : state := default init_state (checked_run env ms init_state).
Lemma final_reachable env ms : reachable env (final env ms).
Proof.
  unfold final. destruct (checked_run env ms init_state) as [s|] eqn:E; simpl; [|constructor].
  eapply checked_run_reachable; [constructor|exact E].
Qed.

(** An environment: the identity order and an empty cache, or a cache that knows group 1 (no outputs). *)
Definition env0 : env := Env (fun _ _ l => l) (fun _ _ _ => None).
Lemma env0_ok : env_ok env0.
Proof. split; [done|]. intros n gr h r o H. done. Qed.
Definition ok_result (cached : bool) : exec_result := ExecResult Success false cached (Resources 1 0 1 10) None None.
Definition bad_result : exec_result := ExecResult (ReturnCode 1) false false (Resources 1 0 1 10) None None.
(** Everything is in the cache, outputs have content 99. *)
Definition env1 : env := Env (fun _ _ l => l) (fun _ gr _ =>
  Some (map (fun _ => ok_result true) (g_execs gr), list_to_map (map (fun f => (f, 99%positive)) (group_outputs gr)))).
Lemma env1_ok : env_ok env1.
Proof.
  split; [done|]. intros n gr h r o H. simpl in H. injection H as <- <-. split; [by rewrite map_length|]. split.
  - intros f Hf. induction (group_outputs gr) as [|x l IH]; [by apply not_elem_of_nil in Hf|]. simpl.
    destruct (decide (x = f)) as [->|Hne]; [rewrite lookup_insert; eauto|]. rewrite lookup_insert_ne by done.
    apply IH. apply elem_of_cons in Hf as [->|?]; done.
  - intros x Hx. apply elem_of_list_In, in_map_iff in Hx as (?&<-&_). done.
Qed.


(** What an event is, without its payload. *)
Inductive brief := BRecv | BStarted (e : exec_uuid) | BDone (e : exec_uuid) | BSkipped (e : exec_uuid) | BFile (f : file_uuid) (ok urgent : bool)
  | BAllDone (c : client_uuid) | BStatus (ready waiting : nat) | BJob (w : worker_uuid) (g : group_uuid) | BStop (w : worker_uuid) (g : group_uuid) | BInsert (g : group_uuid)
  | BCompleted (g : group_uuid) (fc : bool) | BSkip (g : group_uuid) | BLost (g : group_uuid) (w : worker_uuid).
Definition brief_of (ev : event) : brief :=
  match ev with
  | ERecv _ => BRecv
  | ESend _ (MStarted e _) => BStarted e | ESend _ (MDone e _) => BDone e | ESend _ (MSkipped e) => BSkipped e
  | ESend _ (MFile f _ ok u) => BFile f ok u | ESend c MEvaluationDone => BAllDone c | ESend _ (MStatus r w _) => BStatus r w
  | EJob w _ g _ => BJob w (g_uuid g) | EStop w g => BStop w g | ECacheInsert _ g _ _ => BInsert (g_uuid g)
  | ECompleted _ g fc _ _ => BCompleted g fc | ESkip _ g => BSkip g | ELost _ g w => BLost g w
  end.

(** ** Runs of [ex_dag] (compile, then run two programs) on one worker; nothing is cached *)
Definition compiled : gmap file_uuid store_key := {[2%positive := 22%positive; 5%positive := 25%positive]}.
Definition printed : gmap file_uuid store_key := {[4%positive := 24%positive; 6%positive := 26%positive]}.
Definition ex_run : list sched_msg :=
  [WorkerConnected 7; EvaluateDAG 1 ex_dag ex_cb; FileReady 1 1 11; FileReady 1 3 13;
   WorkerResult 7 [ok_result false] compiled; WorkerConnected 7; WorkerResult 7 [ok_result false; bad_result] printed].
Example ex_run_ok : is_Some (checked_run env0 ex_run init_state) /\
  map brief_of (s_log (final env0 ex_run)) =
  [BRecv; BRecv; BRecv; BFile 1 true false; BJob 7 1; BRecv; BRecv; BCompleted 1 false; BInsert 1; BRecv;
   BJob 7 2; BStarted 2; BRecv; BCompleted 2 false; BDone 2; BInsert 2; BFile 4 false true; BAllDone 1].
Proof. split; [apply (bool_decide_unpack _); by vm_compute|by vm_compute]. Qed.

(** The compilation fails: group 2 is skipped, and it is doomed (C05). *)
Definition ex_run_fail : list sched_msg :=
  [WorkerConnected 7; EvaluateDAG 1 ex_dag ex_cb; FileReady 1 1 11; WorkerResult 7 [bad_result] compiled; FileReady 1 3 13].
Example ex_run_fail_ok : is_Some (checked_run env0 ex_run_fail init_state) /\
  map brief_of (s_log (final env0 ex_run_fail)) =
  [BRecv; BRecv; BRecv; BFile 1 true false; BJob 7 1; BRecv; BCompleted 1 false; BInsert 1; BSkip 2; BSkipped 2; BAllDone 1; BRecv; BAllDone 1] /\
  all_single ex_dag /\ announces_provided ex_dag 1 (s_log (final env0 ex_run_fail)).
Proof.
  split; [apply (bool_decide_unpack _); by vm_compute|]. split; [by vm_compute|]. split.
  - intros g gr Hin. unfold ex_dag in Hin. simpl in Hin. apply elem_of_cons in Hin as [Hin|Hin]; [|apply elem_of_list_singleton in Hin];
      injection Hin as -> ->; left; by vm_compute.
  - intros f k. vm_compute s_log. intros Hin. apply elem_of_list_In in Hin. simpl in Hin. simpl.
    repeat destruct Hin as [Hin|Hin]; try done; injection Hin as <- <-; set_solver.
Qed.
Example ex_doomed : doomed ex_dag (failed 1 (s_log (final env0 ex_run_fail))) 2.
Proof.
  refine (proj1 (C05_skipped_are_doomed env0 _ env0_ok (final_reachable env0 ex_run_fail) 1 ex_dag ex_cb _ _ _));
    vm_compute s_log; apply elem_of_list_In; simpl; auto 20.
Qed.

(** The worker is lost while it compiles and the job is given to another one (C06); the client leaves (C13). *)
Definition ex_run_lost : list sched_msg :=
  [WorkerConnected 7; EvaluateDAG 1 ex_dag ex_cb; FileReady 1 1 11; WorkerDisconnected 7; WorkerConnected 8; StatusRequest 1; ClientDisconnected 1].
Example ex_run_lost_ok : is_Some (checked_run env0 ex_run_lost init_state) /\
  map brief_of (s_log (final env0 ex_run_lost)) =
  [BRecv; BRecv; BRecv; BFile 1 true false; BJob 7 1; BRecv; BLost 1 7; BRecv; BJob 8 1; BRecv; BStatus 0 1; BRecv; BAllDone 1; BStop 8 1].
Proof. split; [apply (bool_decide_unpack _); by vm_compute|by vm_compute]. Qed.

(** ** Findings *)

(** C04, C06: a group of two executions without inputs is queued twice and run by two workers, neither of which was
    lost; its client is told about the completion of each execution twice (C15). *)
Definition ex_multi : dag := Dag [] [(1%positive, Group 1 [ex_exec 1 None (Some 1%positive) [] []; ex_exec 2 None (Some 2%positive) [] []] [])] ex_config.
Definition ex_run_multi : list sched_msg :=
  [WorkerConnected 7; WorkerConnected 8; EvaluateDAG 1 ex_multi (WatchSet [1%positive] [] []);
   WorkerResult 7 [ok_result false; ok_result false] {[1%positive := 21%positive; 2%positive := 22%positive]};
   WorkerResult 8 [ok_result false; ok_result false] {[1%positive := 21%positive; 2%positive := 22%positive]}].
Theorem C06_multi_refuted : exists env s, env_ok env /\ reachable env s /\
  (forall c g w, ELost c g w ∉ s_log s) /\
  exists l1 w w' c gr keys l2 keys' l3, w <> w' /\ s_log s = l1 ++ EJob w c gr keys :: l2 ++ EJob w' c gr keys' :: l3 /\
    count (is_done_msg 1 1) (s_log s) = 2.
Proof.
  exists env0, (final env0 ex_run_multi). split; [apply env0_ok|]. split; [apply final_reachable|]. vm_compute s_log. split.
  - intros c g w Hin. apply elem_of_list_In in Hin. simpl in Hin. by repeat destruct Hin as [Hin|Hin].
  - exists (take 3 (s_log (final env0 ex_run_multi))). vm_compute take. simpl.
    eexists 8%positive, 7%positive, _, _, _, [_], _, _. split; [done|]. split; [reflexivity|]. by vm_compute.
Qed.
Print Assumptions C06_multi_refuted.

(** C08: when everything is in the cache the client is never told that the evaluation is over. *)
Definition ex_single : dag := Dag [] [(1%positive, Group 1 [ex_exec 1 None (Some 1%positive) [] []] [])] ex_config.
Theorem C08_all_cached_refuted : exists env s c cl, env_ok env /\ reachable env s /\ s_clients s !! c = Some cl /\
  is_done cl = true /\ (forall g gr, (g, gr) ∈ d_groups (cl_dag cl) -> settled c g (s_log s)) /\
  ESend c MEvaluationDone ∉ s_log s.
Proof.
  exists env1, (final env1 [EvaluateDAG 1 ex_single (WatchSet [1%positive] [] [])]), 1%positive.
  eexists. split; [apply env1_ok|]. split; [apply final_reachable|]. split; [vm_compute; reflexivity|]. split; [by vm_compute|]. split.
  - intros g gr Hin. simpl in Hin. apply elem_of_list_singleton in Hin. injection Hin as -> ->. left.
    vm_compute s_log. eexists _, _, _. apply elem_of_list_In. simpl. right. left. reflexivity.
  - vm_compute s_log. intros Hin. apply elem_of_list_In in Hin. simpl in Hin. by repeat destruct Hin as [Hin|Hin].
Qed.
Print Assumptions C08_all_cached_refuted.

(** C08: the job of client 1 is found in the cache while a message of client 2 is handled (the cache was filled
    meanwhile); client 1 is not told. *)
Definition env2 : env := Env (fun _ _ l => l) (fun n gr h => if bool_decide (3 <= n) then e_cache env1 n gr h else None).
Lemma env2_ok : env_ok env2.
Proof.
  split; [done|]. intros n gr h r o H. simpl in H. case_bool_decide; [|done]. by apply (eo_cache _ env1_ok n gr h r o).
Qed.
Theorem C08_other_client_refuted : exists env s c cl, env_ok env /\ reachable env s /\ s_clients s !! c = Some cl /\
  is_done cl = true /\ (forall g gr, (g, gr) ∈ d_groups (cl_dag cl) -> settled c g (s_log s)) /\ ESend c MEvaluationDone ∉ s_log s /\
  last_recv (s_log s) = Some (EvaluateDAG 2 (Dag [] [] ex_config) (WatchSet [] [] [])).
Proof.
  exists env2, (final env2 [EvaluateDAG 1 ex_single (WatchSet [1%positive] [] []); EvaluateDAG 2 (Dag [] [] ex_config) (WatchSet [] [] [])]), 1%positive.
  eexists. split; [apply env2_ok|]. split; [apply final_reachable|]. split; [vm_compute; reflexivity|]. split; [by vm_compute|]. split; [|split].
  - intros g gr Hin. simpl in Hin. apply elem_of_list_singleton in Hin. injection Hin as -> ->. left.
    vm_compute s_log. eexists _, _, _. apply elem_of_list_In. simpl. do 3 right. left. reflexivity.
  - vm_compute s_log. intros Hin. apply elem_of_list_In in Hin. simpl in Hin. by repeat destruct Hin as [Hin|Hin].
  - by vm_compute.
Qed.
Print Assumptions C08_other_client_refuted.

(** C09: after the loss of a worker its job stays in the queue although another worker is idle. *)
Theorem C09_requeue_refuted : exists env s, env_ok env /\ reachable env s /\ s_queue s <> [] /\ exists w, s_workers s !! w = Some None.
Proof.
  exists env0, (final env0 [WorkerConnected 7; EvaluateDAG 1 ex_single (WatchSet [] [] []); WorkerConnected 8; WorkerDisconnected 7]).
  split; [apply env0_ok|]. split; [apply final_reachable|]. split; [by vm_compute|]. exists 8%positive. by vm_compute.
Qed.
Print Assumptions C09_requeue_refuted.

(** C03: a result with the right number of executions but without one of the outputs makes the scheduler panic, so the
    assumption on the workers in [msg_ok] is needed. *)
Theorem C03_missing_output_refuted : exists env s w results outs, env_ok env /\ reachable env s /\
  handle env (WorkerResult w results outs) s = RPanic.
Proof.
  exists env0, (final env0 [WorkerConnected 7; EvaluateDAG 1 ex_single (WatchSet [] [] [])]), 7%positive, [ok_result false], ∅.
  split; [apply env0_ok|]. split; [apply final_reachable|]. by vm_compute.
Qed.
Print Assumptions C03_missing_output_refuted.

(** C04: a worker that asks for work while it has a job loses it (nobody runs the group any more): the
    assumption on the workers in [msg_ok] is needed. *)
Theorem C04_double_connect_refuted : exists env s w s' c cl g gr, env_ok env /\ reachable env s /\
  handle env (WorkerConnected w) s = ROk s' /\ s_clients s' !! c = Some cl /\ (g, gr) ∈ d_groups (cl_dag cl) /\
  cl_missing cl !! g = None /\ s_queue s' = [] /\ s_workers s' = {[w := None]} /\
  (forall ev, ev ∈ s_log s' -> is_completed c g ev = false /\ is_skip c g ev = false).
Proof.
  exists env0, (final env0 [WorkerConnected 7; EvaluateDAG 1 ex_single (WatchSet [] [] [])]), 7%positive. eexists _, 1%positive, _, 1%positive, _.
  split; [apply env0_ok|]. split; [apply final_reachable|]. split; [vm_compute; reflexivity|]. split; [vm_compute; reflexivity|].
  split; [simpl; left|]. split; [by vm_compute|]. split; [by vm_compute|]. split; [apply (bool_decide_unpack _); by vm_compute|].
  simpl s_log. intros ev Hin. apply elem_of_list_In in Hin. simpl in Hin. repeat destruct Hin as [<-|Hin]; by vm_compute.
Qed.
Print Assumptions C04_double_connect_refuted.
