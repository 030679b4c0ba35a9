(** * SandboxProps: C54, C65, C66 *)
From Coq Require Import Reals Lra Lia ZArith.
From Flocq Require Import Core BinarySingleNaN.
From Verif Require Export SandboxSpec.
From Verif Require Import SandboxProofs SandboxProofs2.
Open Scope R_scope.

Lemma dur x r : fin x -> f64_R x = r -> 0 <= r -> duration x.
Proof. intros H <- Hr. by split. Qed.
(** An execution with the given limits, for the examples *)
Definition quarter : f64 := S754_finite false 4503599627370496 (-54).
Definition half : f64 := S754_finite false 4503599627370496 (-53).
Definition tiny : f64 := S754_finite false 4503599627370496 (-112).       (* 2^-60 *)
Definition sample_limits (cpu sys wall : option f64) (memory stack : option Z) : slimits :=
  SLimits cpu sys wall memory stack false true false false [].
Definition sample (cpu sys wall : option f64) (memory stack : option Z) (extra : f64) (extra_memory : Z) : sexec :=
  SExec (SSystem (rel ["sol"%string])) [] (Some 1%positive) (Some 2%positive) None None None None [] [] [] [] (sample_limits cpu sys wall memory stack) extra extra_memory.

(** ** C54 *)
(** The time given to the sandbox is, for times that are multiples of 2^-k seconds (up to 2^(53-k)): the time asked for
    with the allowance, rounded up to a second: never less, and less than one second more. *)
Theorem C54_cpu_exact k e : (0 <= k <= 1000)%Z -> durations e -> all_on_grid k e ->
  (sl_cpu (se_limits e) <> None \/ sl_sys (se_limits e) <> None) -> asked_cpu e < powerRZ 2 (53 - k) ->
  exists t, time_limit e = Some t /\ asked_cpu e <= IZR t < asked_cpu e + 1.
Proof. intros. eexists. split; [by eapply cpu_exact|]. apply ceil_bounds. Qed.
Theorem C54_wall_exact k e : (0 <= k <= 1000)%Z -> durations e -> all_on_grid k e ->
  sl_wall (se_limits e) <> None -> asked_wall e < powerRZ 2 (53 - k) ->
  exists t, wall_limit e = Some t /\ asked_wall e <= IZR t < asked_wall e + 1.
Proof. intros. eexists. split; [by eapply wall_exact|]. apply ceil_bounds. Qed.
(** For all times: the limit that was asked for is covered; the allowance is covered up to the error of the f64 sums. *)
Theorem C54_cpu_covers_partial e : durations e -> (sl_cpu (se_limits e) <> None \/ sl_sys (se_limits e) <> None) -> asked_cpu e <= IZR (2 ^ 62) ->
  exists t, time_limit e = Some t /\ opt_R (sl_cpu (se_limits e)) <= IZR t /\ opt_R (sl_sys (se_limits e)) <= IZR t /\
    (1 - powerRZ 2 (-51)) * asked_cpu e <= IZR t < (1 + powerRZ 2 (-51)) * asked_cpu e + 1.
Proof. intros. rewrite <- bpow_51. by apply cpu_bounds. Qed.
Theorem C54_wall_covers_partial e : durations e -> sl_wall (se_limits e) <> None -> asked_wall e <= IZR (2 ^ 62) ->
  exists t, wall_limit e = Some t /\ opt_R (sl_wall (se_limits e)) <= IZR t /\
    (1 - powerRZ 2 (-51)) * asked_wall e <= IZR t < (1 + powerRZ 2 (-51)) * asked_wall e + 1.
Proof. intros. rewrite <- bpow_51. by apply wall_bounds. Qed.
(** The allowance is not always covered: it may vanish in the sum. *)
Lemma tiny_R : fin tiny /\ 0 < f64_R tiny.
Proof. split; [by split|]. unfold f64_R, tiny. cbn [SF2R]. apply F2R_gt_0. done. Qed.
Theorem C54_allowance_refuted : exists e t, durations e /\ time_limit e = Some t /\ IZR t < asked_cpu e.
Proof.
  exists (sample (Some f64_one) None None None None tiny 0), 1%Z. split; [|split].
  - split; [exact (dur tiny _ (proj1 tiny_R) eq_refl (Rlt_le _ _ (proj2 tiny_R)))|]. intros x Hx. cbn in Hx. assert (x = f64_one) as -> by (set_solver).
    pose proof f64_one_R. split; [tauto|lra].
  - by vm_compute.
  - unfold asked_cpu. cbn [se_limits sample sample_limits sl_cpu sl_sys opt_R se_extra_time]. pose proof f64_one_R as [_ ->]. pose proof tiny_R. lra.
Qed.
(** An infinite time is the largest limit. *)
Theorem C54_infinite e : (sl_wall (se_limits e) = Some (S754_infinity false) -> se_extra_time e = f64_zero -> wall_limit e = Some (2 ^ 64 - 1)%Z) /\
  (sl_cpu (se_limits e) = Some (S754_infinity false) -> sl_sys (se_limits e) = None -> se_extra_time e = f64_zero -> time_limit e = Some (2 ^ 64 - 1)%Z).
Proof. unfold wall_limit, time_limit, cpu_limit. split; [intros -> ->|intros -> -> ->]; by vm_compute. Qed.
(** No limit is set that was not asked for. *)
Theorem C54_no_limit e :
  (time_limit e = None <-> sl_cpu (se_limits e) = None /\ sl_sys (se_limits e) = None) /\
  (wall_limit e = None <-> sl_wall (se_limits e) = None) /\
  (memory_limit e = None <-> sl_memory (se_limits e) = None) /\
  (stack_limit e = None <-> sl_stack (se_limits e) = None).
Proof.
  unfold time_limit, wall_limit, memory_limit, stack_limit, cpu_limit.
  destruct (sl_cpu _), (sl_sys _), (sl_wall _), (sl_memory _), (sl_stack _); naive_solver.
Qed.
(** The memory is exact (KiB to bytes), unless the product does not fit. *)
Theorem C54_memory e mem : sl_memory (se_limits e) = Some mem -> (0 <= mem)%Z -> (0 <= se_extra_memory e)%Z ->
  ((mem + se_extra_memory e) * 1024 < 2 ^ 64)%Z -> memory_limit e = Some ((mem + se_extra_memory e) * 1024)%Z.
Proof. intros H ? ? ?. unfold memory_limit, wrap. rewrite H. cbn. f_equal. rewrite (Z.mod_small (mem + _)) by lia. apply Z.mod_small. lia. Qed.
Theorem C54_stack e st : sl_stack (se_limits e) = Some st -> (0 <= st * 1024 < 2 ^ 64)%Z -> stack_limit e = Some (st * 1024)%Z.
Proof. intros H ?. unfold stack_limit, wrap. rewrite H. cbn. f_equal. apply Z.mod_small. lia. Qed.
Theorem C54_memory_overflow_refuted : exists e mem, sl_memory (se_limits e) = Some mem /\ (0 < mem < 2 ^ 64)%Z /\ se_extra_memory e = 0%Z /\ memory_limit e = Some 0%Z.
Proof. exists (sample None None None (Some (2 ^ 54)%Z) None f64_zero 0), (2 ^ 54)%Z. by vm_compute. Qed.
(** A process that the sandbox kills is reported as one that exceeded a limit: always if the time was exceeded, and for the
    processor time if both the limits (user, system) were asked for ... *)
Theorem C54_wall_kill_reported m boxdir e fifo c u x t : build_command m boxdir e fifo = Some c -> durations e -> measured u -> asked_wall e <= IZR (2 ^ 62) ->
  c_wall c = Some t -> IZR t < f64_R (u_wall u) ->
  verdict_of e u x ∈ [VTime; VSysTime; VWallTime].
Proof.
  intros Hb Hd Hu Ha Ht Hw.
  assert (wall_limit e = Some t) as Hl.
  { unfold build_command in Hb. destruct (mount_dirs _ _ _) as [? d1]. destruct (mount_dirs _ _ d1) as [? d2]. destruct (executable _ _ _ _); [|done]. by injection Hb as <-. }
  destruct (sl_wall (se_limits e)) as [w|] eqn:Ew; [|unfold wall_limit in Hl; by rewrite Ew in Hl].
  destruct (wall_bounds e Hd ltac:(congruence) Ha) as (t' & Ht' & Hc & _). rewrite Hl in Ht'. injection Ht' as <-. rewrite Ew in Hc. cbn in Hc.
  assert (over (Some w) (u_wall u) = true) as Ho.
  { cbn. apply f64_lt_R; [|apply Hu|lra]. destruct Hd as [_ Hd]. apply Hd. rewrite Ew. set_solver. }
  unfold verdict_of. rewrite Ew, Ho. destruct (over (sl_cpu _) _); [left|]. destruct (over (sl_sys _) _); [right; left|right; right; left].
Qed.
Theorem C54_cpu_kill_reported k m boxdir e fifo c u x t : build_command m boxdir e fifo = Some c -> (0 <= k <= 1000)%Z -> durations e -> all_on_grid k e ->
  sl_cpu (se_limits e) <> None -> sl_sys (se_limits e) <> None -> asked_cpu e < powerRZ 2 (53 - k) -> measured u ->
  c_time c = Some t -> IZR t < f64_R (u_user u) + f64_R (u_sys u) ->
  verdict_of e u x ∈ [VTime; VSysTime].
Proof.
  intros Hb Hk Hd Hg Hc Hs Ha Hu Ht Hw.
  assert (time_limit e = Some t) as Hl.
  { unfold build_command in Hb. destruct (mount_dirs _ _ _) as [? d1]. destruct (mount_dirs _ _ d1) as [? d2]. destruct (executable _ _ _ _); [|done]. by injection Hb as <-. }
  destruct (C54_cpu_exact k e Hk Hd Hg (or_introl Hc) Ha) as (t' & Ht' & Hlo & _). rewrite Hl in Ht'. injection Ht' as <-. unfold asked_cpu in Hlo.
  destruct (sl_cpu (se_limits e)) as [cpu|] eqn:Ec; [|done]. destruct (sl_sys (se_limits e)) as [sys|] eqn:Es; [|done]. cbn [opt_R] in Hlo.
  destruct Hd as [[_ Hx] Hd]. assert (duration cpu /\ duration sys) as [[Fc _] [Fs _]]. { split; apply Hd; rewrite ?Ec, ?Es; set_solver. }
  destruct Hu as ([Fu _] & [Fy _] & _).
  unfold verdict_of. rewrite Ec, Es. cbn [over]. destruct (f64_lt cpu (u_user u)) eqn:E1; [left|].
  destruct (f64_lt sys (u_sys u)) eqn:E2; [right; left|]. exfalso.
  assert (~ f64_R cpu < f64_R (u_user u)) by (rewrite <- (f64_lt_R _ _ Fc Fu); congruence).
  assert (~ f64_R sys < f64_R (u_sys u)) by (rewrite <- (f64_lt_R _ _ Fs Fy); congruence). lra.
Qed.
(** ... and for the memory, in KiB rounded down: *)
Theorem C54_memory_reported e u x : (0 <= u_memory u)%Z ->
  (verdict_of e u x = VMemory <->
    verdict_of e u x ∉ [VTime; VSysTime; VWallTime] /\ exists mem, sl_memory (se_limits e) = Some mem /\ ((mem + 1) * 1024 <= u_memory u)%Z).
Proof.
  intros Hu. assert (forall mem, (mem <? u_memory u / 1024)%Z = true <-> ((mem + 1) * 1024 <= u_memory u)%Z) as Hm.
  { intros mem. rewrite Z.ltb_lt. pose proof (Z.mul_div_le (u_memory u) 1024 ltac:(lia)). pose proof (Z.mul_succ_div_gt (u_memory u) 1024 ltac:(lia)). lia. }
  unfold verdict_of. destruct (over (sl_cpu _) _); [split; [done|]; intros [H _]; exfalso; apply H; left|].
  destruct (over (sl_sys _) _); [split; [done|]; intros [H _]; exfalso; apply H; right; left|].
  destruct (over (sl_wall _) _); [split; [done|]; intros [H _]; exfalso; apply H; right; right; left|].
  destruct (sl_memory (se_limits e)) as [mem|].
  - destruct (mem <? u_memory u / 1024)%Z eqn:E.
    + split; [|done]. intros _. split; [set_solver|]. exists mem. split; [done|]. by apply Hm.
    + split.
      * destruct x as [c| |]; try done. case_decide; done.
      * intros [_ (mem' & [= <-] & H)]. apply Hm in H. congruence.
  - split; [destruct x as [c| |]; try done; case_decide; done|]. by intros [_ (mem' & ? & _)].
Qed.
(** ... but not in general: the solutions have only a limit on the user time, the sandbox counts also the system time, and a
    solution killed for it is reported as killed by a signal (a runtime error). *)
Definition host : machine := Machine (fun _ => None) (fun p => bool_decide (p = absolute ["usr"%string])) (fun p => Some (absolute ["usr"%string; "sol"%string])) (fun _ => absolute ["usr"%string]) (fun _ => true).
Definition box_a : spath := absolute ["tmp"%string; "a"%string].
Definition two : f64 := S754_finite false 4503599627370496 (-51).
Lemma dyadics_R : (fin two /\ f64_R two = 2) /\ (fin half /\ f64_R half = 1 / 2) /\ (fin quarter /\ f64_R quarter = 1 / 4).
Proof. repeat split; unfold f64_R, two, half, quarter, SF2R, F2R; cbn [Fnum Fexp cond_Zopp]; simpl; lra. Qed.
Theorem C54_kill_reported_refuted : exists m boxdir e fifo c u, build_command m boxdir e fifo = Some c /\ durations e /\ measured u /\
  sl_cpu (se_limits e) <> None /\ may_kill c u /\ verdict_of e u Killed = VSignal 9.
Proof.
  destruct dyadics_R as ((F2 & R2) & (Fh & Rh) & _). pose proof f64_one_R as [F1 R1]. pose proof f64_zero_R as [F0 R0].
  exists host, box_a, (sample (Some f64_one) None (Some two) None None half 0), None.
  eexists. exists (Usage half two f64_one 0). split; [by vm_compute|]. split; [|split; [|split; [done|split]]].
  - split; [apply (dur half (1 / 2) Fh Rh); lra|]. intros x Hx. cbn in Hx.
    assert (x = f64_one \/ x = two) as [->| ->] by set_solver; (split; [done|lra]).
  - split; [apply (dur half (1 / 2) Fh Rh); lra|]. split; [apply (dur two 2 F2 R2); lra|apply (dur f64_one 1 F1 R1); lra].
  - left. exists 2%Z. split; [done|]. cbn [u_user u_sys]. lra.
  - by vm_compute.
Qed.
(** A non-trivial case of the exact theorems: 1 s + 0.5 s and an allowance of 0.25 s give 2 s. *)
Theorem C54_example : let e := sample (Some f64_one) (Some half) None (Some 65536%Z) (Some 1024%Z) quarter 0 in
  durations e /\ all_on_grid 2 e /\ asked_cpu e = 7 / 4 /\ time_limit e = Some 2%Z /\ wall_limit e = None /\ memory_limit e = Some 67108864%Z /\ stack_limit e = Some 1048576%Z.
Proof.
  destruct dyadics_R as (_ & (Fh & Rh) & (Fq & Rq)). pose proof f64_one_R as [F1 R1]. split; [|split; [|split]].
  - split; [apply (dur quarter (1 / 4) Fq Rq); lra|]. intros x Hx. cbn in Hx. assert (x = f64_one \/ x = half) as [->| ->] by set_solver; (split; [done|lra]).
  - split; [exists 1%Z|].
    + change (se_extra_time _) with quarter. rewrite Rq. cbn [powerRZ Z.opp]. simpl. lra.
    + intros x Hx. cbn in Hx. assert (x = f64_one \/ x = half) as [->| ->] by set_solver; [exists 4%Z; rewrite R1|exists 2%Z; rewrite Rh]; simpl; lra.
  - unfold asked_cpu. cbn [se_limits sample sample_limits sl_cpu sl_sys opt_R se_extra_time]. rewrite R1, Rh, Rq. lra.
  - by vm_compute.
Qed.

(** ** C65 *)
(** The mounts are exactly: the writable directories box and etc of the sandbox, the directory of the pipes, and, read-only
    and at the same path, the system directories that exist, the directories asked for, the directory of the command. *)
Theorem C65_mounts m boxdir e fifo c : build_command m boxdir e fifo = Some c -> forall mt, mt ∈ c_mounts c <->
  mt = Mount (pjoin boxdir (rel ["box"%string])) (absolute ["box"%string]) true \/
  mt = Mount (pjoin boxdir (rel ["etc"%string])) (absolute ["etc"%string]) true \/
  (exists d, fifo = Some d /\ mt = Mount d (absolute ["box"%string; "tm_pipes"%string]) false) \/
  (exists d, mt = Mount d d false /\
     (((d ∈ readable_dirs \/ d ∈ sl_extra_dirs (se_limits e)) /\ m_is_dir m d = true) \/
      (exists cmd found, se_command e = SSystem cmd /\ m_which m cmd = Some found /\ d = m_parent m found))).
Proof.
  intros Hb mt. destruct (build_inv _ _ _ _ _ Hb) as (x & Hx & -> & _).
  destruct (mount_dirs_spec m readable_dirs []) as (A1 & _ & A3). revert Hx A1 A3. generalize (mount_dirs m readable_dirs []). intros [m1 d1]. cbn [fst snd].
  generalize readable_dirs. intros dirs.
  destruct (mount_dirs_spec m (sl_extra_dirs (se_limits e)) d1) as (B1 & _ & B3). revert B1 B3. generalize (mount_dirs m (sl_extra_dirs (se_limits e)) d1). intros [m2 d2]. cbn [fst snd].
  intros B1 B3 Hx A1 A3. apply executable_mounts in Hx as [X1 _].
  rewrite !elem_of_cons, !elem_of_app, A1, B1, X1.
  assert (mt ∈ match fifo with Some d => [Mount d (pjoin box_root fifo_sandbox_dir) false] | None => [] end <->
    exists d, fifo = Some d /\ mt = Mount d (absolute ["box"%string; "tm_pipes"%string]) false) as ->.
  { destruct fifo as [d|]; [rewrite elem_of_list_singleton|rewrite elem_of_nil]; [|split; [done|by intros (? & ? & _)]]. split; [intros ->; by exists d|]. by intros (d' & [= <-] & ->). }
  split.
  - intros [H|[H|[H|[(d & -> & H1 & H2 & _)|[(d & -> & H1 & H2 & _)|(cmd & found & H1 & H2 & -> & _)]]]]]; auto; do 3 right; eexists; (split; [done|]); eauto.
    right. by exists cmd, found.
  - intros [H|[H|[H|(d & -> & H)]]]; auto; do 3 right.
    assert (d ∈ d1 <-> (d ∈ dirs /\ m_is_dir m d = true)) as E1. { rewrite A3. split; [intros [Hn|?]; [by apply elem_of_nil in Hn|done]|auto]. }
    destruct (decide (d ∈ d1)) as [H1|H1].
    { apply E1 in H1. left. exists d. split_and!; [done|tauto|tauto|]. by intros ?%elem_of_nil. }
    destruct (decide (d ∈ d2)) as [H2|H2].
    { right; left. exists d. apply B3 in H2 as [H2|H2]; [done|]. tauto. }
    right; right. destruct H as [[[H|H] Hd]|(cmd & found & Hc & Hf & ->)].
    + exfalso. apply H1, E1. done.
    + exfalso. apply H2, B3. by right.
    + by exists cmd, found.
Qed.
(** Nothing of the machine is writable: the only writable mounts are the two directories of this sandbox. *)
Theorem C65_writable m boxdir e fifo c mt : build_command m boxdir e fifo = Some c -> mt ∈ c_mounts c -> mt_writable mt = true -> below boxdir (mt_source mt).
Proof.
  intros Hb Hm Hw. apply (C65_mounts _ _ _ _ _ Hb) in Hm as [->|[->|[(d & _ & ->)|(d & -> & _)]]]; try done; cbn; by apply below_name.
Qed.
(** A directory is mounted once. *)
Theorem C65_once m boxdir e fifo c : build_command m boxdir e fifo = Some c -> fifo <> Some (absolute ["box"%string; "tm_pipes"%string]) ->
  NoDup (filter (fun mt => mt_writable mt = false /\ mt_source mt = mt_target mt) (c_mounts c)).
Proof.
  intros Hb Hfifo. destruct (build_inv _ _ _ _ _ Hb) as (x & Hx & -> & _). rewrite !filter_cons. cbn [mt_writable]. rewrite !decide_False by (by intros [? _]).
  rewrite filter_app.
  assert (filter (fun mt => mt_writable mt = false /\ mt_source mt = mt_target mt) match fifo with Some d => [Mount d (pjoin box_root fifo_sandbox_dir) false] | None => [] end = []) as ->.
  { destruct fifo as [d|]; [|done]. rewrite filter_cons, decide_False; [done|]. cbn. intros [_ ->]. done. }
  apply NoDup_filter.
  destruct (mount_dirs_spec m readable_dirs []) as (A1 & A2 & A3). revert Hx A1 A2 A3. generalize (mount_dirs m readable_dirs []). intros [m1 d1]. cbn [fst snd].
  generalize readable_dirs. intros dirs.
  destruct (mount_dirs_spec m (sl_extra_dirs (se_limits e)) d1) as (B1 & B2 & B3). revert B1 B2 B3. generalize (mount_dirs m (sl_extra_dirs (se_limits e)) d1). intros [m2 d2]. cbn [fst snd].
  intros B1 B2 B3 Hx A1 A2 A3. apply executable_mounts in Hx as [X1 X2].
  apply NoDup_app. split; [done|]. split.
  - intros mt Hm Hm2. apply A1 in Hm as (d & -> & H1 & H2 & H3). apply elem_of_app in Hm2 as [Hm2|Hm2].
    + apply B1 in Hm2 as (d' & [= <-] & _ & _ & Hn). apply Hn, A3. auto.
    + apply X1 in Hm2 as (cmd & found & _ & _ & [= ->] & Hn). apply Hn, B3. left. apply A3. auto.
  - apply NoDup_app. split; [done|]. split; [|done]. intros mt Hm Hm2. apply B1 in Hm as (d & -> & H1 & H2 & H3).
    apply X1 in Hm2 as (cmd & found & _ & _ & [= ->] & Hn). apply Hn, B3. auto.
Qed.
(** The configuration is refused only for the command: a system command that is not found, a file that is not executable. *)
Theorem C65_refused m boxdir e fifo : build_command m boxdir e fifo = None <->
  match se_command e with
  | SSystem cmd => m_which m cmd = None
  | SLocal cmd => m_local_ok m (pjoin (pjoin boxdir (rel ["box"%string])) cmd) = false
  end.
Proof.
  unfold build_command. generalize (mount_dirs m readable_dirs []). intros [m1 d1]. generalize (mount_dirs m (sl_extra_dirs (se_limits e)) d1). intros [m2 d2].
  unfold executable. destruct (se_command e) as [cmd|cmd].
  - by destruct (m_which m cmd).
  - by destruct (m_local_ok _ _).
Qed.
(** The rest of the configuration: an unprivileged user in /box, the system calls and file systems asked for, the limits. *)
Theorem C65_settings m boxdir e fifo c : build_command m boxdir e fifo = Some c ->
  c_workdir c = absolute ["box"%string] /\ c_uid c = 1000%Z /\ c_gid c = 1000%Z /\ c_args c = se_args e /\
  c_multiprocess c = sl_multiprocess (se_limits e) /\ c_chmod c = negb (sl_read_only (se_limits e)) /\
  c_tmpfs c = sl_tmpfs (se_limits e) /\ c_proc c = sl_proc (se_limits e) /\
  c_time c = time_limit e /\ c_wall c = wall_limit e /\ c_memory c = memory_limit e /\ c_stack c = stack_limit e /\
  match se_command e with
  | SSystem cmd => m_which m cmd = Some (c_executable c)
  | SLocal cmd => c_executable c = pjoin (absolute ["box"%string]) cmd
  end.
Proof.
  unfold build_command. generalize (mount_dirs m readable_dirs []). intros [m1 d1]. generalize (mount_dirs m (sl_extra_dirs (se_limits e)) d1). intros [m2 d2].
  unfold executable. destruct (se_command e) as [cmd|cmd].
  - destruct (m_which m cmd) as [found|] eqn:Hf; [|done]. intros [= <-]. cbn. repeat split.
  - destruct (m_local_ok _ _); [|done]. intros [= <-]. cbn. repeat split.
Qed.
(** No variable of the machine leaks, but PATH and those asked for. *)
Theorem C65_environment m boxdir e fifo c k v : build_command m boxdir e fifo = Some c -> (k, v) ∈ c_env c <->
  (k = "PATH"%string /\ v = default ""%string (m_var m "PATH")) \/ (k ∈ se_copy_env e /\ m_var m k = Some v) \/ (k, v) ∈ se_env e.
Proof.
  unfold build_command. generalize (mount_dirs m readable_dirs []). intros [m1 d1]. generalize (mount_dirs m (sl_extra_dirs (se_limits e)) d1). intros [m2 d2].
  destruct (executable m boxdir e d2) as [x|]; [|done]. intros [= <-]. cbn [c_env]. unfold environment. rewrite elem_of_cons, elem_of_app, elem_of_list_omap.
  split; (intros [H|[H|H]]; [left|right; left|by right; right]).
  - by injection H as -> ->.
  - destruct H as (k' & Hk & H). destruct (m_var m k') as [v'|] eqn:Hv; [|done]. injection H as -> ->. done.
  - by destruct H as [-> ->].
  - destruct H as [Hk Hv]. exists k. split; [done|]. by rewrite Hv.
Qed.
(** The standard streams: a pipe of the group, else a file of the sandbox if the execution has it, else nothing *)
Theorem C65_streams m boxdir e fifo c : build_command m boxdir e fifo = Some c ->
  (se_stdin_redirect e = None -> c_stdin c = match se_stdin e with Some _ => pjoin boxdir (rel ["stdin"%string]) | None => absolute ["dev"%string; "null"%string] end) /\
  (forall d u, fifo = Some d -> se_stdin_redirect e = Some (rel ["tm_pipes"%string; u]) -> c_stdin c = pjoin d (rel [u])) /\
  (se_stdout_redirect e = None -> c_stdout c = match se_stdout e with Some _ => stdout_path boxdir e | None => absolute ["dev"%string; "null"%string] end) /\
  (forall d u, fifo = Some d -> se_stdout_redirect e = Some (rel ["tm_pipes"%string; u]) -> c_stdout c = pjoin d (rel [u])) /\
  (se_stderr_redirect e = None -> c_stderr c = match se_stderr e with Some _ => stderr_path boxdir e | None => absolute ["dev"%string; "null"%string] end) /\
  (forall d u, fifo = Some d -> se_stderr_redirect e = Some (rel ["tm_pipes"%string; u]) -> c_stderr c = pjoin d (rel [u])).
Proof.
  unfold build_command. generalize (mount_dirs m readable_dirs []). intros [m1 d1]. generalize (mount_dirs m (sl_extra_dirs (se_limits e)) d1). intros [m2 d2].
  destruct (executable m boxdir e d2) as [x|]; [|done]. intros [= <-]. cbn [c_stdin c_stdout c_stderr]. unfold stream_path, stdout_path, stderr_path.
  split_and!.
  - intros ->. by destruct (se_stdin e).
  - intros d u -> ->. done.
  - intros ->. by destruct (se_stdout e).
  - intros d u -> ->. done.
  - intros ->. by destruct (se_stderr e).
  - intros d u -> ->. done.
Qed.
(** A redirection to an absolute path is below the directory of the sandbox; one to a relative path that is not a pipe is not:
    it is in /box of the machine. *)
Theorem C65_redirect m boxdir e fifo c : build_command m boxdir e fifo = Some c ->
  (forall l, se_stdin_redirect e = Some (absolute l) -> c_stdin c = pjoin boxdir (rel l)) /\
  (forall l, se_stdout_redirect e = Some (absolute l) -> c_stdout c = pjoin boxdir (rel l)) /\
  (forall l, se_stderr_redirect e = Some (absolute l) -> c_stderr c = pjoin boxdir (rel l)).
Proof.
  unfold build_command. generalize (mount_dirs m readable_dirs []). intros [m1 d1]. generalize (mount_dirs m (sl_extra_dirs (se_limits e)) d1). intros [m2 d2].
  destruct (executable m boxdir e d2) as [x|]; [|done]. intros [= <-]. cbn [c_stdin c_stdout c_stderr]. unfold stream_path.
  split_and!; intros l ->; by destruct fifo.
Qed.
Theorem C65_redirect_refuted : exists m boxdir e fifo c, build_command m boxdir e fifo = Some c /\ se_stdout_redirect e = Some (rel ["out.txt"%string]) /\
  c_stdout c = absolute ["box"%string; "out.txt"%string] /\ ~ below boxdir (c_stdout c).
Proof.
  exists host, box_a, (SExec (SSystem (rel ["sol"%string])) [] None (Some 2%positive) None None (Some (rel ["out.txt"%string])) None [] [] [] [] (sample_limits None None None None None) f64_zero 0), None.
  eexists. split; [by vm_compute|]. split; [done|]. split; [done|]. cbn [c_stdout]. by intros (l & [= ] & _).
Qed.
(** What the worker reads as the standard output is what the process wrote, if the output is not redirected (above).  It is
    not if the output goes to a pipe. *)
Theorem C65_captured_refuted : exists m boxdir e fifo c, build_command m boxdir e fifo = Some c /\ se_stdout e <> None /\ c_stdout c <> stdout_path boxdir e.
Proof.
  exists host, box_a, (SExec (SSystem (rel ["sol"%string])) [] None (Some 2%positive) None None (Some (rel ["tm_pipes"%string; "p"%string])) None [] [] [] [] (sample_limits None None None None None) f64_zero 0),
    (Some (absolute ["tmp"%string; "pipes"%string])). eexists. split; [by vm_compute|]. split; done.
Qed.
Theorem C65_example : exists c, build_command host box_a (sample (Some f64_one) None None None None f64_zero 0) None = Some c /\
  c_mounts c = [Mount (absolute ["tmp"%string; "a"%string; "box"%string]) (absolute ["box"%string]) true; Mount (absolute ["tmp"%string; "a"%string; "etc"%string]) (absolute ["etc"%string]) true;
                Mount (absolute ["usr"%string]) (absolute ["usr"%string]) false].
Proof. eexists. split; by vm_compute. Qed.

(** ** C66 *)
(** The files of an execution whose names are plain are all put below the directory of the sandbox. *)
Theorem C66_inside boxdir e keys ops : setup boxdir e keys = Some ops -> plain_files e -> Forall (fun o => below boxdir (op_path o)) ops.
Proof.
  intros H [Hi Ho]. destruct (setup_inv _ _ _ _ H) as (stdin & inputs & H1 & H2 & ->). clear H.
  assert (forall n, n <> ".."%string -> below boxdir (pjoin boxdir (rel [n]))) as Hn by (intros; by apply below_name).
  repeat rewrite Forall_app. split_and!.
  - repeat constructor; cbn [op_path]; try (by apply Hn). apply below_trans; [done|]. split_and!; [done|done|]. cbn. set_solver.
  - destruct (se_stdin e); [|by subst]. destruct H1 as (k & _ & ->). repeat constructor. by apply Hn.
  - destruct (se_stdout e); repeat constructor. by apply Hn.
  - destruct (se_stderr e); repeat constructor. by apply Hn.
  - apply Forall_forall. intros o Ho'. apply elem_of_list_lookup in Ho' as (i & Hl). destruct (Forall2_lookup_r _ _ _ _ _ H2 Hl) as ([p [f x]] & Hp & k & Hk & ->).
    cbn. apply below_trans; [done|]. eapply Hi, elem_of_list_lookup_2, Hp.
  - apply Forall_forall. intros o Ho'. apply elem_of_list_fmap in Ho' as (p & -> & Hp). cbn. apply below_trans; [done|]. by apply Ho.
  - destruct (sl_read_only _); repeat constructor. by apply Hn.
Qed.
(** With other names they are not: an absolute name is a path of the machine, which is overwritten. *)
Theorem C66_inside_refuted : exists boxdir e keys ops p k mode, setup boxdir e keys = Some ops /\ FileAt p k mode ∈ ops /\ ~ below boxdir p.
Proof.
  exists box_a, (SExec (SSystem (rel ["sol"%string])) [] None None None None None None [(absolute ["home"%string; "f"%string], (1%positive, false))] [] [] [] (sample_limits None None None None None) f64_zero 0),
    {[1%positive := 7%positive]}. eexists. exists (absolute ["home"%string; "f"%string]), 7%positive, 256%Z. split; [by vm_compute|]. split; [by do 3 right; left|].
  intros (l & H & _). done.
Qed.
(** The inputs are there, with their content; the preparation fails only for an input that is not known. *)
Theorem C66_inputs boxdir e keys ops p f x : setup boxdir e keys = Some ops -> (p, (f, x)) ∈ se_inputs e ->
  exists k, keys !! f = Some k /\ FileAt (output_path boxdir p) k (if x : bool then 320 else 256)%Z ∈ ops.
Proof.
  intros H Hi. destruct (setup_inv _ _ _ _ H) as (stdin & inputs & H1 & H2 & ->). clear H.
  apply elem_of_list_lookup in Hi as (i & Hi). destruct (Forall2_lookup_l _ _ _ _ _ H2 Hi) as (o & Ho & k & Hk & ->). exists k. split; [done|].
  apply elem_of_list_lookup_2 in Ho. do 4 (apply elem_of_app; right). apply elem_of_app; left. exact Ho.
Qed.
Theorem C66_stdin boxdir e keys ops f : setup boxdir e keys = Some ops -> se_stdin e = Some f ->
  exists k, keys !! f = Some k /\ FileAt (pjoin boxdir (rel ["stdin"%string])) k 256 ∈ ops.
Proof.
  intros H Hi. destruct (setup_inv _ _ _ _ H) as (stdin & inputs & H1 & H2 & ->). rewrite Hi in H1. destruct H1 as (k & Hk & ->). exists k. split; [done|].
  apply elem_of_app; right. by left.
Qed.
Theorem C66_outputs boxdir e keys ops p : setup boxdir e keys = Some ops -> p ∈ se_outputs e -> EmptyAt (output_path boxdir p) 384 ∈ ops.
Proof.
  intros H Hi. destruct (setup_inv _ _ _ _ H) as (stdin & inputs & H1 & H2 & ->).
  do 5 (apply elem_of_app; right). apply elem_of_app; left. apply elem_of_list_fmap. by exists p.
Qed.
Theorem C66_fails boxdir e keys : setup boxdir e keys = None <->
  exists f, keys !! f = None /\ (se_stdin e = Some f \/ exists p x, (p, (f, x)) ∈ se_inputs e).
Proof.
  unfold setup. split.
  - intros H. apply bind_None in H as [H|(s & Hs & H)].
    + destruct (se_stdin e) as [f|]; [|done]. exists f. split; [|by left]. destruct (keys !! f); [done|done].
    + apply bind_None in H as [H|(i & _ & H)]; [|done]. apply mapM_None in H. apply Exists_exists in H as ([p [f x]] & Hi & H). cbn in H.
      exists f. split; [by destruct (keys !! f)|]. right. by exists p, x.
  - intros (f & Hf & [Hs|(p & x & Hi)]).
    + by rewrite Hs, Hf.
    + apply bind_None. destruct (match se_stdin e with Some f => _ | None => _ end) as [s|] eqn:E; [|by left]. right. exists s. split; [done|].
      apply bind_None. left. apply mapM_None. apply Exists_exists. exists (p, (f, x)). split; [done|]. cbn. by rewrite Hf.
Qed.
(** Nothing is written twice: no output is made where an input is (which would empty a file of the store). *)
Definition file_op (o : disk_op) : option spath := match o with FileAt p _ _ | EmptyAt p _ => Some p | _ => None end.
Theorem C66_no_clash boxdir e keys ops : setup boxdir e keys = Some ops -> plain_files e ->
  NoDup ((se_inputs e).*1 ++ se_outputs e) -> NoDup (omap file_op ops).
Proof.
  intros H [Hi Ho] HN. destruct (setup_inv _ _ _ _ H) as (stdin & inputs & H1 & H2 & ->). clear H.
  set (box := pjoin boxdir (rel ["box"%string])) in *.
  assert (omap file_op inputs = map (pjoin box) (se_inputs e).*1) as Ei.
  { clear -H2. induction H2 as [|i o l l' (k & _ & ->) _ IH]; [done|]. cbn. f_equal. exact IH. }
  assert (omap file_op (map (fun p => EmptyAt (pjoin box p) 384) (se_outputs e)) = map (pjoin box) (se_outputs e)) as Eo.
  { clear. induction (se_outputs e) as [|p l IH]; [done|]. cbn. f_equal. exact IH. }
  repeat rewrite omap_app. rewrite Ei, Eo.
  assert (omap file_op (if sl_read_only (se_limits e) then [ModeOf box 320] else []) = []) as -> by (by destruct (sl_read_only _)).
  rewrite app_nil_r. change (omap file_op [_; _; _]) with (@nil spath). rewrite app_nil_l, <- map_app.
  assert (exists l, (NoDup l /\ "box"%string ∉ l) /\ omap file_op stdin ++
    omap file_op match se_stdout e with Some _ => [EmptyAt (pjoin boxdir (rel ["stdout"%string])) 384] | None => [] end ++
    omap file_op match se_stderr e with Some _ => [EmptyAt (pjoin boxdir (rel ["stderr"%string])) 384] | None => [] end = map (fun n => pjoin boxdir (rel [n])) l) as (l & Hl & El).
  { exists ((if se_stdin e then ["stdin"%string] else []) ++ (if se_stdout e then ["stdout"%string] else []) ++ (if se_stderr e then ["stderr"%string] else [])). split.
    - destruct (se_stdin e), (se_stdout e), (se_stderr e); (split; by apply (bool_decide_unpack _)).
    - destruct (se_stdin e) as [f|]; [destruct H1 as (k & _ & ->)|subst stdin]; destruct (se_stdout e), (se_stderr e); done. }
  rewrite !app_assoc in El |- *. rewrite (app_assoc _ _ (map (pjoin box) _)), El. apply NoDup_app. split_and!.
  - apply NoDup_fmap_2_strong.
    + intros a b _ _ Hab. unfold pjoin in Hab. cbn in Hab. injection Hab as Hab. apply app_inv_head in Hab. by injection Hab.
    + apply Hl.
  - intros p Hp Hq. apply elem_of_list_fmap in Hp as (n & -> & Hn). apply elem_of_list_fmap in Hq as (q & Hq & Hqin).
    assert (sp_abs q = false) as Hq0. { apply elem_of_app in Hqin as [Hqin|Hqin]; [|by apply Ho]. apply elem_of_list_fmap in Hqin as ([q' [f x]] & -> & Hq'). by eapply Hi. }
    unfold box, pjoin in Hq. rewrite Hq0 in Hq. cbn in Hq. injection Hq as Hq. rewrite <- app_assoc in Hq. apply app_inv_head in Hq. injection Hq as -> _.
    by apply Hl in Hn.
  - apply NoDup_fmap_2_strong; [|done]. intros a b Ha Hb. apply pjoin_inj.
    + apply elem_of_app in Ha as [Ha|Ha]; [|by apply Ho]. apply elem_of_list_fmap in Ha as ([q' [f x]] & -> & Hq'). by eapply Hi.
    + apply elem_of_app in Hb as [Hb|Hb]; [|by apply Ho]. apply elem_of_list_fmap in Hb as ([q' [f x]] & -> & Hq'). by eapply Hi.
Qed.
(** A file is executable if and only if it was asked for, when the same content is not an input in both ways ... *)
Lemma content_snoc ops o p : content_at (ops ++ [o]) p = match o with FileAt q k _ => if decide (q = p) then Some k else content_at ops p | _ => content_at ops p end.
Proof. unfold content_at. by rewrite fold_left_app. Qed.
Lemma mode_snoc ops o k : mode_of_content (ops ++ [o]) k = match o with FileAt _ k' m => if decide (k' = k) then Some m else mode_of_content ops k | _ => mode_of_content ops k end.
Proof. unfold mode_of_content. by rewrite fold_left_app. Qed.
Lemma content_unique ops p k m : FileAt p k m ∈ ops -> NoDup (omap file_op ops) -> content_at ops p = Some k.
Proof.
  induction ops as [|o ops IH] using rev_ind; [by intros ?%elem_of_nil|]. rewrite content_snoc, omap_app. intros H HN.
  apply NoDup_app in HN as (HN & HD & _). apply elem_of_app in H as [H|H].
  - assert (p ∈ omap file_op ops) as Hp by (apply elem_of_list_omap; by exists (FileAt p k m)).
    destruct o; try (by apply IH). rewrite decide_False; [by apply IH|]. intros ->. eapply HD; [exact Hp|]. by left.
  - apply elem_of_list_singleton in H as <-. by rewrite decide_True.
Qed.
Lemma mode_all ops k m : (exists p, FileAt p k m ∈ ops) -> (forall p m', FileAt p k m' ∈ ops -> m' = m) -> mode_of_content ops k = Some m.
Proof.
  induction ops as [|o ops IH] using rev_ind; [by intros (p & ?%elem_of_nil)|]. intros (p & H) Hall. rewrite mode_snoc.
  apply elem_of_app in H as [H|H].
  - assert (mode_of_content ops k = Some m) as E. { apply IH; [by exists p|]. intros p' m' H'. eapply Hall, elem_of_app. by left. }
    destruct o as [| |q k' m'| |]; try done. destruct (decide (k' = k)) as [->|]; [|done]. f_equal. eapply (Hall q), elem_of_app. right. by left.
  - apply elem_of_list_singleton in H as <-. by rewrite decide_True.
Qed.
Theorem C66_mode boxdir e keys ops p f x : setup boxdir e keys = Some ops -> plain_files e -> NoDup ((se_inputs e).*1 ++ se_outputs e) ->
  (p, (f, x)) ∈ se_inputs e ->
  (forall p' f' x', (p', (f', x')) ∈ se_inputs e -> keys !! f' = keys !! f -> x' = x) -> (forall f', se_stdin e = Some f' -> keys !! f' = keys !! f -> x = false) ->
  mode_at ops (output_path boxdir p) = Some (if x : bool then 320 else 256)%Z.
Proof.
  intros H Hp HN Hi Hsame Hstdin. destruct (C66_inputs _ _ _ _ _ _ _ H Hi) as (k & Hk & Hf). unfold mode_at.
  rewrite (content_unique _ _ _ _ Hf (C66_no_clash _ _ _ _ H Hp HN)). cbn. apply mode_all; [by eexists|].
  intros p' m' H'. destruct (setup_inv _ _ _ _ H) as (stdin & inputs & H1 & H2 & ->).
  repeat rewrite elem_of_app in H'. repeat rewrite elem_of_cons in H'. destruct H' as [[H'|[H'|[H'|H']]]|[H'|[H'|[H'|[H'|[H'|H']]]]]]; try done.
  - by apply elem_of_nil in H'.
  - destruct (se_stdin e) as [f'|]; [|subst; by apply elem_of_nil in H']. destruct H1 as (k' & Hk' & ->). apply elem_of_list_singleton in H'. injection H' as _ <- ->.
    by rewrite (Hstdin f') by congruence.
  - destruct (se_stdout e); [by apply elem_of_list_singleton in H'|by apply elem_of_nil in H'].
  - destruct (se_stderr e); [by apply elem_of_list_singleton in H'|by apply elem_of_nil in H'].
  - apply elem_of_list_lookup in H' as (i & Hl). destruct (Forall2_lookup_r _ _ _ _ _ H2 Hl) as ([q [f' x']] & Hq & k' & Hk' & He). injection He as -> -> ->.
    cbn in Hk' |- *. rewrite (Hsame q f' x'); [done|by eapply elem_of_list_lookup_2|congruence].
  - apply elem_of_list_fmap in H' as (q & Hq & _). done.
  - destruct (sl_read_only _); [by apply elem_of_list_singleton in H'|by apply elem_of_nil in H'].
Qed.
(** ... and not in general: the files are hard links, so the last mode set on the content counts, also if another sandbox
    sets it: after the preparation of the second sandbox, the program of the first one is not executable any more. *)
Definition with_input (executable : bool) : sexec :=
  SExec (SLocal (rel ["p"%string])) [] None None None None None None [(rel ["p"%string], (1%positive, executable))] [] [] [] (sample_limits None None None None None) f64_zero 0.
Theorem C66_mode_refuted : exists keys ops ops', setup box_a (with_input true) keys = Some ops /\ setup (absolute ["tmp"%string; "b"%string]) (with_input false) keys = Some ops' /\
  mode_at ops (output_path box_a (rel ["p"%string])) = Some 320%Z /\ mode_at (ops ++ ops') (output_path box_a (rel ["p"%string])) = Some 256%Z.
Proof. exists {[1%positive := 7%positive]}. do 2 eexists. split; [by vm_compute|]. split; by vm_compute. Qed.
(** A read-only execution cannot create files in its directory (the last operation). *)
Theorem C66_read_only boxdir e keys ops : setup boxdir e keys = Some ops -> sl_read_only (se_limits e) = true -> last ops = Some (ModeOf (pjoin boxdir (rel ["box"%string])) 320).
Proof. intros H Hr. destruct (setup_inv _ _ _ _ H) as (stdin & inputs & _ & _ & ->). rewrite Hr. rewrite !app_assoc. apply last_snoc. Qed.
Theorem C66_example : plain_files (with_input true) /\ NoDup ((se_inputs (with_input true)).*1 ++ se_outputs (with_input true)) /\
  exists ops, setup box_a (with_input true) {[1%positive := 7%positive]} = Some ops /\ mode_at ops (absolute ["tmp"%string; "a"%string; "box"%string; "p"%string]) = Some 320%Z.
Proof.
  split; [split; [|by intros p ?%elem_of_nil]|split; [by apply (bool_decide_unpack _)|eexists; split; by vm_compute]].
  intros p f x H. apply elem_of_list_singleton in H. injection H as -> _ _. split_and!; [done|done|]. cbn. set_solver.
Qed.
Print Assumptions C54_cpu_exact. Print Assumptions C54_wall_exact. Print Assumptions C54_cpu_covers_partial. Print Assumptions C54_wall_covers_partial.
Print Assumptions C54_allowance_refuted. Print Assumptions C54_no_limit. Print Assumptions C54_memory. Print Assumptions C54_memory_reported. Print Assumptions C54_stack. Print Assumptions C54_memory_overflow_refuted.
Print Assumptions C54_wall_kill_reported. Print Assumptions C54_cpu_kill_reported. Print Assumptions C54_kill_reported_refuted. Print Assumptions C54_example.
Print Assumptions C65_mounts. Print Assumptions C65_writable. Print Assumptions C65_once. Print Assumptions C65_refused. Print Assumptions C65_settings. Print Assumptions C65_environment. Print Assumptions C65_streams. Print Assumptions C65_captured_refuted. Print Assumptions C65_example.
Print Assumptions C66_inside. Print Assumptions C66_inside_refuted. Print Assumptions C66_inputs. Print Assumptions C66_stdin. Print Assumptions C66_outputs. Print Assumptions C66_fails. Print Assumptions C66_no_clash. Print Assumptions C66_mode. Print Assumptions C66_mode_refuted. Print Assumptions C66_read_only. Print Assumptions C66_example.
