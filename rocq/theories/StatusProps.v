(** * StatusProps: C101 *)
From Verif Require Import CheckDagProofs CheckDagProofs2 CheckDagProps StatusSpec SchedView SchedSteps SchedWalk SchedExt SchedReach SchedAux SchedProps SchedExamples StatusProofs.
Local Arguments mu : simpl never.

(** The server always knows who is connected: the workers and what they do, and the clients, are what the
    messages received and the jobs sent say. *)
Theorem C101_knows_its_peers : forall env s, env_ok env -> reachable env s ->
  (forall w, s_workers s !! w = workers_after (s_log s) !! w) /\
  (forall c, is_Some (s_clients s !! c) <-> c ∈ clients_after (s_log s)).
Proof.
  intros env s Henv Hr. destruct (reachable_known env s Henv Hr) as [HW HC]. split.
  - intros w. by rewrite HW.
  - intros c. by rewrite <- HC, elem_of_dom.
Qed.
Print Assumptions C101_knows_its_peers.

(** Every status request is answered, once, to the client that asked, and nothing else changes; the answer has
    each connected worker once with its job, if its client is still connected; the two numbers count the groups
    that wait for files and (a subset of) the groups in the queue. *)
Theorem C101_status_answer : forall env s c, env_ok env -> reachable env s ->
  exists s' nready nwaiting l, handle env (StatusRequest c) s = ROk s' /\
  s_log s' = s_log s ++ [ERecv (StatusRequest c); ESend c (MStatus nready nwaiting l)] /\
  s_queue s' = s_queue s /\ s_clients s' = s_clients s /\ s_workers s' = s_workers s /\
  NoDup l.*1 /\
  (forall w job, (w, job) ∈ l <-> exists j, workers_after (s_log s) !! w = Some j /\ job = reported_job (clients_after (s_log s)) j) /\
  (exists W : gset (client_uuid * group_uuid), nwaiting = size W /\
     forall c' g, (c', g) ∈ W <-> exists cl, s_clients s !! c' = Some cl /\ waiting cl g) /\
  (exists R : gset (client_uuid * group_uuid), nready = size R /\
     (forall c' g, (c', g) ∈ R -> exists cl gr, s_clients s !! c' = Some cl /\ (g, gr) ∈ d_groups (cl_dag cl) /\ queued s c' g) /\
     ((forall c' cl, s_clients s !! c' = Some cl -> all_single (cl_dag cl)) -> forall c' g, (c', g) ∈ R <-> queued s c' g)).
Proof.
  intros env s c Henv Hr. destruct (reachable_steps env s Henv Hr) as (_&Hb&Hcore).
  destruct (reachable_known env s Henv Hr) as [HW HC].
  set (s1 := emit [ERecv (StatusRequest c)] s).
  assert (Hcore1 : core (Cfg [] [] s1)) by (by eapply (core_sub _ _ Hcore)).
  pose proof (proj1 (pairs_ok (fun cl => dom (cl_missing cl)) (s_clients s))) as W1.
  pose proof (proj1 (pairs_ok cl_ready (s_clients s))) as R1.
  set (ws := e_ord env (s_tick s) _ (map_to_list (s_workers s))).
  assert (Hws : ws ≡ₚ map_to_list (s_workers s)) by apply (eo_ord _ Henv).
  eexists _, _, _, _. split; [exact (status_handler env c s1 Henv Hcore1)|].
  split; [simpl; by rewrite <- app_assoc|]. do 3 (split; [done|]). simpl. fold ws. split; [|split; [|split]].
  - replace ((map _ ws).*1) with (ws.*1); [rewrite Hws; apply NoDup_fst_map_to_list|].
    clear. generalize ws. intros l. induction l as [|x l IH]; [done|]. rewrite map_cons, !fmap_cons. by f_equal.
  - intros w job. rewrite <- HW, <- HC. split.
    + intros Hin. apply elem_of_list_fmap in Hin as ([w' j]&[= -> ->]&Hin). rewrite Hws in Hin. apply elem_of_map_to_list in Hin. eauto.
    + intros (j&Hj&->). apply elem_of_list_fmap. exists (w, j). split; [done|]. rewrite Hws. by apply elem_of_map_to_list.
  - exists (pairs (fun cl => dom (cl_missing cl)) (s_clients s)). split; [done|].
    intros c' g. rewrite W1. unfold waiting. setoid_rewrite elem_of_dom. done.
  - exists (pairs cl_ready (s_clients s)). split; [done|]. pose proof (reachable_members env s Henv Hr) as Hmem.
    assert (Hfwd : forall c' g, (c', g) ∈ pairs cl_ready (s_clients s) -> exists cl gr, s_clients s !! c' = Some cl /\ (g, gr) ∈ d_groups (cl_dag cl) /\ queued s c' g).
    { intros c' g. rewrite R1. intros (cl&Hcl&Hg). destruct (Hmem c' cl g Hcl (or_introl Hg)) as [gr Hgr]. exists cl, gr. split; [done|].
      split; [done|]. by eapply (C04_no_group_lost env s Henv Hr). }
    split; [done|]. intros Hs c' g. split; [by intros (cl&gr&_&_&Hq)%Hfwd|].
    intros Hq. destruct Hq as (en&Hen&<-&<-). destruct (proj1 (C04_jobs_belong env s Henv Hr) en Hen) as (cl&gr&Hcl&Hgr).
    rewrite R1. exists cl. split; [done|]. eapply (C04_exactly_one_place env s Henv Hr _ _ _ _ Hcl Hgr); [by eapply Hs|]. by exists en.
Qed.
Print Assumptions C101_status_answer.

(** When every group is queued at most once (no group with several executions and no input), the two numbers
    together count the groups of the connected clients that are left: not completed, not skipped, and not
    running on a worker. *)
Theorem C101_counts_what_is_left : forall env s c s' nready nwaiting l, env_ok env -> reachable env s ->
  (forall c' cl, s_clients s !! c' = Some cl -> all_single (cl_dag cl)) ->
  handle env (StatusRequest c) s = ROk s' -> s_log s' = s_log s ++ [ERecv (StatusRequest c); ESend c (MStatus nready nwaiting l)] ->
  exists U : gset (client_uuid * group_uuid), nready + nwaiting = size U /\
  forall c' g, (c', g) ∈ U <-> exists cl gr, s_clients s !! c' = Some cl /\ (g, gr) ∈ d_groups (cl_dag cl) /\
    ~ settled c' g (s_log s) /\ ~ exists w, working s w c' g.
Proof.
  intros env s c s' nready nwaiting l Henv Hr Hs Hh El.
  destruct (C101_status_answer env s c Henv Hr) as (s2&r&n&l2&Hh2&El2&_&_&_&_&_&(W&->&HWs)&(R&->&HR1&HR2)).
  rewrite Hh in Hh2. injection Hh2 as <-. rewrite El in El2. apply app_inv_head in El2. injection El2 as -> -> ->.
  specialize (HR2 Hs). exists (R ∪ W).
  assert (Hone : forall c' cl g gr, s_clients s !! c' = Some cl -> (g, gr) ∈ d_groups (cl_dag cl) ->
    (if bool_decide (waiting cl g) then 1 else 0) + queue_count c' g (s_queue s) + workers_on c' g s +
    count (is_completed c' g) (s_log s) + count (is_skip c' g) (s_log s) = 1).
  { intros c' cl g gr Hcl Hgr. by destruct (C04_exactly_one_place env s Henv Hr c' cl g gr Hcl Hgr (Hs _ _ Hcl _ _ Hgr)). }
  split.
  - rewrite size_union; [done|]. intros [c' g] Hr' Hw'. destruct (HR1 _ _ Hr') as (cl&gr&Hcl&Hgr&Hq).
    apply HWs in Hw' as (cl'&Hcl'&Hwt). rewrite Hcl in Hcl'. injection Hcl' as <-.
    specialize (Hone _ _ _ _ Hcl Hgr). rewrite bool_decide_eq_true_2 in Hone by done. apply queue_count_pos in Hq. lia.
  - intros c' g. rewrite elem_of_union. split.
    + intros H. assert (Hx : exists cl gr, s_clients s !! c' = Some cl /\ (g, gr) ∈ d_groups (cl_dag cl)).
      { destruct H as [H|H]; [destruct (HR1 _ _ H) as (cl&gr&?&?&?); eauto|]. apply HWs in H as (cl&Hcl&[M HM]).
        destruct (reachable_steps env s Henv Hr) as (_&_&Hcore). destruct (co_wait _ Hcore c' cl Hcl g M HM) as (gr&?&_). eauto. }
      destruct Hx as (cl&gr&Hcl&Hgr). exists cl, gr. split; [done|]. split; [done|]. specialize (Hone _ _ _ _ Hcl Hgr).
      assert (Hpos : 1 <= (if bool_decide (waiting cl g) then 1 else 0) + queue_count c' g (s_queue s)).
      { destruct H as [H|H].
        - destruct (HR1 _ _ H) as (_&_&_&_&Hq). apply queue_count_pos in Hq. lia.
        - apply HWs in H as (cl'&Hcl'&Hwt). rewrite Hcl in Hcl'. injection Hcl' as <-. rewrite bool_decide_eq_true_2 by done. lia. }
      split.
      * intros Hset%settled_count. lia.
      * intros [w Hw]. rewrite workers_on_size in Hone. assert (size (wk_set s c' g) <> 0); [|lia].
        intros H0. apply size_empty_inv in H0. apply (not_elem_of_empty (C := gset worker_uuid) w). rewrite <- H0. by apply elem_wk_set.
    + intros (cl&gr&Hcl&Hgr&Hns&Hnw). destruct (proj1 (C04_no_group_lost env s Henv Hr c' cl g gr Hcl Hgr)) as [H|[H|[H|H]]]; [| |done|done].
      * right. apply HWs. eauto.
      * left. by apply HR2.
Qed.
Print Assumptions C101_counts_what_is_left.

(** A concrete run: one worker compiles, the two runs wait; then the worker is lost and the job is given to
    another one.  The answers of the server after the first job, and after the second one. *)
Definition statuses (log : list event) : list (nat * nat * list (worker_uuid * option (client_uuid * group_uuid))) :=
  omap (fun ev => match ev with ESend _ (MStatus r n l) => Some (r, n, l) | _ => None end) log.
Definition ex_status_run : list sched_msg :=
  [StatusRequest 1; WorkerConnected 7; EvaluateDAG 1 ex_dag ex_cb; StatusRequest 1; FileReady 1 1 11; StatusRequest 1;
   WorkerDisconnected 7; StatusRequest 1; WorkerConnected 8; StatusRequest 2; ClientDisconnected 1; StatusRequest 2].
Example C101_example : is_Some (checked_run env0 ex_status_run init_state) /\
  statuses (s_log (final env0 ex_status_run)) =
  [(0, 0, []); (0, 2, [(7%positive, None)]); (0, 1, [(7%positive, Some (1%positive, 1%positive))]); (1, 1, []);
   (0, 1, [(8%positive, Some (1%positive, 1%positive))]); (0, 0, [(8%positive, None)])].
Proof. split; [apply (bool_decide_unpack _); by vm_compute|by vm_compute]. Qed.

(** A group with two executions and no input is queued twice: while a worker runs it the status says that
    nothing is ready, but it is still in the queue. *)
Theorem C101_ready_is_the_queue_refuted : exists env s c g s' l, env_ok env /\ reachable env s /\ queued s c g /\
  handle env (StatusRequest c) s = ROk s' /\ s_log s' = s_log s ++ [ERecv (StatusRequest c); ESend c (MStatus 0 0 l)].
Proof.
  exists env0, (final env0 [WorkerConnected 7; EvaluateDAG 1 ex_multi (WatchSet [] [] [])]), 1%positive, 1%positive.
  eexists _, _. split; [apply env0_ok|]. split; [apply final_reachable|]. split.
  - apply queue_count_pos. apply Nat.ltb_lt. by vm_compute.
  - split; by vm_compute.
Qed.
Print Assumptions C101_ready_is_the_queue_refuted.
