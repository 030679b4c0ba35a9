(** * PinProps: what the small functions mean that the specifications of other properties mention

    The statements of C01, C22, C36, C67, C70, C81-C83 name the accessors and the setters of the model (the files an
    execution reads, the limits of a new execution, the parent of a path...).  Each theorem here says what one of them is,
    without the model's own definitions, so that a change of it is a change of the property. *)
From Coq Require Import NArith ZArith Ascii.
From Verif Require Import DagModel BuildModel BadCaseModel WorkerModel.
From stdpp Require Import gmap.

(** ** The files of an execution (C01) *)
Theorem C01_reads e f : f ∈ dependencies e <-> e_stdin e = Some f \/ exists p exe, (p, ExecInput f exe) ∈ e_inputs e.
Proof.
  unfold dependencies. rewrite elem_of_app, elem_of_list_fmap. split.
  - intros [H|([p [g x]] & -> & H)]; [left; destruct (e_stdin e); cbn in H; [by apply elem_of_list_singleton in H as ->|by apply elem_of_nil in H]|right; by exists p, x].
  - intros [->|(p & x & H)]; [left; by apply elem_of_list_singleton|right; by exists (p, ExecInput f x)].
Qed.
Print Assumptions C01_reads.
Theorem C01_writes e f : f ∈ DagModel.outputs e <-> e_stdout e = Some f \/ e_stderr e = Some f \/ exists p, (p, f) ∈ e_outputs e.
Proof.
  unfold DagModel.outputs. rewrite !elem_of_app, elem_of_list_fmap. split.
  - intros [H|[H|([p g] & -> & H)]].
    + left. destruct (e_stdout e); cbn in H; [by apply elem_of_list_singleton in H as ->|by apply elem_of_nil in H].
    + right; left. destruct (e_stderr e); cbn in H; [by apply elem_of_list_singleton in H as ->|by apply elem_of_nil in H].
    + right; right. by exists p.
  - intros [->|[->|(p & H)]]; [left; by apply elem_of_list_singleton|right; left; by apply elem_of_list_singleton|right; right; by exists (p, f)].
Qed.
Print Assumptions C01_writes.
Theorem C01_group_files g f : (f ∈ group_deps g <-> exists e, e ∈ g_execs g /\ f ∈ dependencies e) /\
  (f ∈ group_outputs g <-> exists e, e ∈ g_execs g /\ f ∈ DagModel.outputs e).
Proof. unfold group_deps, group_outputs. rewrite !elem_of_list_bind. naive_solver. Qed.
Print Assumptions C01_group_files.

(** ** The limits of a new execution, and how they are changed (C67, C70) *)
(** Nothing is limited, except for the files that are written (1 GiB); one process; the box is read only, without /tmp and /proc *)
Theorem C67_new_limits : l_cpu_time default_limits = None /\ l_sys_time default_limits = None /\ l_wall_time default_limits = None /\
  l_memory default_limits = None /\ l_allow_multiprocess default_limits = false /\ l_nofile default_limits = None /\
  l_fsize default_limits = Some (1024 * 1024 * 1024)%Z /\ l_memlock default_limits = None /\ l_stack default_limits = None /\
  l_read_only default_limits = true /\ l_mount_tmpfs default_limits = false /\ l_mount_proc default_limits = false /\
  l_extra_readable_dirs default_limits = [].
Proof. by split_and!. Qed.
Print Assumptions C67_new_limits.
Theorem C67_change_limits : forall cpu sys wall mem multi nofile fsize memlock stack ro tmp proc dirs,
  let l := Limits cpu sys wall mem multi nofile fsize memlock stack ro tmp proc dirs in
  allow_multiprocess l = Limits cpu sys wall mem true nofile fsize memlock stack ro tmp proc dirs /\
  (forall c w, set_times c w l = Limits c sys w mem multi nofile fsize memlock stack ro tmp proc dirs) /\
  (forall m, set_memory m l = Limits cpu sys wall m multi nofile fsize memlock stack ro tmp proc dirs) /\
  (forall r t p, set_mounts r t p l = Limits cpu sys wall mem multi nofile fsize memlock stack r t p dirs) /\
  (forall d, add_readable_dirs d l = Limits cpu sys wall mem multi nofile fsize memlock stack ro tmp proc (dirs ++ d)).
Proof. done. Qed.
Print Assumptions C67_change_limits.
(** The configuration of the DAG is given to each of its executions, which are not changed otherwise; the same for the priority *)
Theorem C67_config : forall u cmd args i o r co cr ins outs ri ro rr env copy lim cfg tag prio,
  let e := Execution u cmd args i o r co cr ins outs ri ro rr env copy lim cfg tag prio in
  (forall c, set_config c e = Execution u cmd args i o r co cr ins outs ri ro rr env copy lim c tag prio) /\
  (forall p, set_priority p e = Execution u cmd args i o r co cr ins outs ri ro rr env copy lim cfg tag p).
Proof. done. Qed.
Print Assumptions C67_config.
(** A path that is joined to a directory: an absolute one stays, the others are below it *)
Theorem C67_join : (forall b s, path_join b (String "/" s) = String "/" s) /\
  (forall b c s, b <> "" -> c <> "/"%char -> path_join b (String c s) = b +:+ "/" +:+ String c s) /\
  (forall s, path_join "" s = s).
Proof.
  split_and!.
  - done.
  - intros b c s Hb Hc. unfold path_join. cbn [starts_with_slash]. rewrite !bool_decide_eq_false_2 by done. done.
  - intros s. unfold path_join. by destruct (starts_with_slash s).
Qed.
Print Assumptions C67_join.
(** The fifos of a group are in tm_pipes, and they are distinct *)
Theorem C67_fifos u v : (exists n, fifo_path u = "tm_pipes/" +:+ n) /\ (fifo_path u = fifo_path v -> u = v).
Proof.
  split; [by eexists|]. unfold fifo_path. intros H. apply (inj _), (inj pretty) in H. lia.
Qed.
Print Assumptions C67_fifos.

(** ** The result of an execution (C36) *)
(** [o] is what is captured of a stream: nothing if it was not asked, otherwise what the reads give *)
Definition captures (s : stream) (asked : option N) (o : option bytes) : Prop :=
  match asked with None => o = None | Some n => exists b, o = Some b /\ capture_stream s (Some n) = Some (Some b) end.
Definition cannot_capture (s : stream) (asked : option N) : Prop := exists n, asked = Some n /\ capture_stream s (Some n) = None.
(** The sandbox failed: an internal error, with nothing else *)
Theorem C36_sandbox_failed e m lo : compute_execution_result e (SbFailed m) lo = ExecResult (InternalError m) false false (Resources 0 0 0 0) None None.
Proof. done. Qed.
(** The sandbox ran: what it says about the resources and about being killed is reported, with the streams that were asked,
    and the status is that of the limits, of the signal and of the code, unless a stream could not be read *)
Theorem C36_sandbox_ran e code sig res killed lo :
  let r := compute_execution_result e (SbSuccess code sig res killed) lo in
  res_was_killed r = killed /\ res_was_cached r = false /\ res_resources r = res /\
  (captures (lo_stdout lo) (e_capture_stdout e) (res_stdout r) \/ cannot_capture (lo_stdout lo) (e_capture_stdout e) /\ res_stdout r = None) /\
  (captures (lo_stderr lo) (e_capture_stderr e) (res_stderr r) \/ cannot_capture (lo_stderr lo) (e_capture_stderr e) /\ res_stderr r = None) /\
  (cannot_capture (lo_stdout lo) (e_capture_stdout e) \/ cannot_capture (lo_stderr lo) (e_capture_stderr e) -> is_internal_error (res_status r) = true) /\
  (~ cannot_capture (lo_stdout lo) (e_capture_stdout e) -> ~ cannot_capture (lo_stderr lo) (e_capture_stderr e) -> res_status r = exec_status e code sig res).
Proof.
  cbn zeta.
  assert (forall s a, (cannot_capture s a /\ capture_stream s a = None) \/ (exists o, capture_stream s a = Some o /\ captures s a o /\ ~ cannot_capture s a)) as Hs.
  { intros s [n|]; [|right; exists None; split; [done|split; [done|by intros (m & ? & _)]]]. destruct (capture_stream s (Some n)) as [o|] eqn:E; [|left; split; [by exists n|done]].
    right. exists o. split; [done|]. split; [|intros (m & [= <-] & H); congruence].
    assert (exists b, o = Some b) as (b & ->); [|by exists b]. cbn in E. destruct (st_open s); [|done]. destruct (capture_loop n (st_reads s) (st_error s) []) as [b|]; [|done]. injection E as <-. by exists b. }
  unfold compute_execution_result. destruct (Hs (lo_stdout lo) (e_capture_stdout e)) as [[H1 ->]|(o1 & -> & H1 & H1')], (Hs (lo_stderr lo) (e_capture_stderr e)) as [[H2 ->]|(o2 & -> & H2 & H2')];
    cbn; split_and!; try done; try (by left); try (by right); try tauto.
Qed.
Print Assumptions C36_sandbox_failed.
Print Assumptions C36_sandbox_ran.
(** Changing the status changes nothing else *)
Theorem C36_with_status st k c res o r s : with_status (ExecResult s k c res o r) st = ExecResult st k c res o r.
Proof. done. Qed.
Print Assumptions C36_with_status.
Example C36_ran_example : exists e code sig res killed lo, compute_execution_result e (SbSuccess code sig res killed) lo =
  ExecResult (ReturnCode 3) false false (Resources 1 2 3 4) (Some [7%N]) None.
Proof.
  exists (set_captures (Some 1000%N) None (exec_new 1 (System "true"))), 3%Z, None, (Resources 1 2 3 4), false, (Leftovers (Stream true [[7%N]; []] false) (Stream false [] false) (fun _ => DAbsent)).
  by vm_compute.
Qed.
