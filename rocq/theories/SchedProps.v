(** * SchedProps: properties C03-C15 of the scheduler *)
From Verif Require Import CheckDagProofs CheckDagProofs2 CheckDagProps SchedSpec SchedSteps SchedWalk SchedExt SchedReach SchedView SchedView2 SchedFiles SchedFiles2 SchedFiles3 SchedFiles4 SchedCount SchedAux.
Local Arguments mu : simpl never.

(** C03. *)
Theorem C03_jobs_have_their_inputs : forall env s, env_ok env -> reachable env s ->
  forall l1 w c gr keys l2, s_log s = l1 ++ EJob w c gr keys :: l2 ->
  exists d cb, ERecv (EvaluateDAG c d cb) ∈ l1 /\ (g_uuid gr, gr) ∈ d_groups d /\
    (forall f, f ∈ group_deps gr -> ok_file d c f l1 /\ exists k, keys !! f = Some k /\ provenance c f k l1) /\
    (forall f k, keys !! f = Some k -> f ∈ group_deps gr).
Proof. intros env s Henv Hr l1 w c gr keys l2 E. exact (log_justified env s Henv Hr _ _ _ E). Qed.
Print Assumptions C03_jobs_have_their_inputs.

Theorem C03_no_panic : forall env s m, env_ok env -> reachable env s -> msg_ok s m ->
  (exists s', handle env m s = ROk s') \/
  (handle env m s = RBail /\ exists w results outs c g cl gr, m = WorkerResult w results outs /\ working s w c g /\
     s_clients s !! c = Some cl /\ (g, gr) ∈ d_groups (cl_dag cl) /\ length results <> length (g_execs gr)).
Proof.
  intros env s m Henv Hr Hm. destruct (reachable_inv1 env s Henv Hr) as (Hb&Hc&_).
  destruct (handle_good env m s Henv Hb Hc Hm) as [(s2&E2&_)|[E H]]; [left; eauto|right; eauto].
Qed.
Print Assumptions C03_no_panic.

(** C04. *)
Lemma workers_on_size c g s : workers_on c g s = size (wk_set s c g).
Proof.
  assert (Hnd : NoDup (filter (fun wj : worker_uuid * option (client_uuid * group_uuid) => wj.2 = Some (c, g)) (map_to_list (s_workers s))).*1).
  { apply NoDup_filter_fst, NoDup_fst_map_to_list. }
  unfold workers_on. rewrite <- (fmap_length fst).
  rewrite <- (size_list_to_set (C := gset worker_uuid)) by done. f_equal. apply set_eq. intros w.
  rewrite elem_of_list_to_set, elem_wk_set, elem_of_list_fmap. unfold working. split.
  - intros ([w' j]&->&Hin). apply elem_of_list_filter in Hin as [Hj Hin]. simpl in *. subst j. by apply elem_of_map_to_list in Hin.
  - intros Hw. exists (w, Some (c, g)). split; [done|]. apply elem_of_list_filter. split; [done|]. by apply elem_of_map_to_list.
Qed.

Theorem C04_no_group_lost : forall env s, env_ok env -> reachable env s ->
  forall c cl g gr, s_clients s !! c = Some cl -> (g, gr) ∈ d_groups (cl_dag cl) ->
  (waiting cl g \/ queued s c g \/ (exists w, working s w c g) \/ settled c g (s_log s)) /\
  (g ∈ cl_ready cl -> queued s c g) /\ (g ∈ cl_running cl -> exists w, working s w c g) /\
  (forall M, cl_missing cl !! g = Some M -> M <> ∅ /\ forall f, f ∈ M -> f ∈ group_deps gr).
Proof.
  intros env s Henv Hr c cl g gr Hcl Hg. pose proof (group_view env s Henv Hr c cl g gr Hcl Hg) as (H1&H2&H3&_). simpl in *.
  rewrite !bool_decide_eq_true in *. unfold queued. rewrite queue_count_pos in H1.
  assert (Hrun : g ∈ cl_running cl -> exists w, working s w c g).
  { intros Hx. destruct (set_choose_L _ (H2 Hx)) as [w Hw]. exists w. by apply elem_wk_set in Hw. }
  split; [|split; [done|split; [done|]]].
  - destruct H3 as [?|[?|[?|[?|?]]]]; [by left|right; left; eauto|right; right; left; eauto| |].
    + unfold lcount in H. simpl in H. lia.
    + right; right; right. by apply settled_count.
  - intros M HM. destruct (reachable_inv1 env s Henv Hr) as (_&Hc&_).
    destruct (co_wait _ Hc c cl Hcl g M HM) as (gr'&Hg'&Hne&Hsub&_).
    assert (gr' = gr) as ->; [|done]. destruct (co_dag _ Hc _ cl Hcl) as [(_&Hnd&_) _]. by eapply groups_inj.
Qed.
Print Assumptions C04_no_group_lost.

Theorem C04_exactly_one_place : forall env s, env_ok env -> reachable env s ->
  forall c cl g gr, s_clients s !! c = Some cl -> (g, gr) ∈ d_groups (cl_dag cl) -> single gr ->
  (if bool_decide (waiting cl g) then 1 else 0) + queue_count c g (s_queue s) + workers_on c g s +
    count (is_completed c g) (s_log s) + count (is_skip c g) (s_log s) = 1 /\
  (g ∈ cl_ready cl <-> queued s c g) /\ (g ∈ cl_running cl <-> exists w, working s w c g).
Proof.
  intros env s Henv Hr c cl g gr Hcl Hg Hs. pose proof (group_view env s Henv Hr c cl g gr Hcl Hg) as (_&_&_&H). simpl in *.
  destruct (H Hs) as (Hb&Hn&Hwt&Hk&Hrd&Hrn&Hcp&Hsk&_). rewrite !bool_decide_eq_true in *.
  rewrite workers_on_size, Hk. split; [|split].
  - change (lcount c g []) with 0 in Hn. rewrite Hcp, Hsk. destruct (phase_of c g (s_log s)); rewrite ?size_empty, ?size_singleton; try lia. done.
  - unfold queued. by rewrite Hrd, queue_count_pos.
  - rewrite Hrn. split.
    + intros Hx. destruct (set_choose_L _ Hx) as [w Hw]. exists w. by apply elem_wk_set in Hw.
    + intros [w Hw] He. apply elem_wk_set in Hw. rewrite He in Hw. by apply not_elem_of_empty in Hw.
Qed.
Print Assumptions C04_exactly_one_place.

(** Every queued job belongs to a connected client's DAG, and so does every running one whose client is connected. *)
Theorem C04_jobs_belong : forall env s, env_ok env -> reachable env s ->
  (forall en, en ∈ s_queue s -> exists cl gr, s_clients s !! en_client en = Some cl /\ (en_group en, gr) ∈ d_groups (cl_dag cl)) /\
  (forall w c g cl, working s w c g -> s_clients s !! c = Some cl -> exists gr, (g, gr) ∈ d_groups (cl_dag cl)).
Proof.
  intros env s Henv Hr. destruct (reachable_inv1 env s Henv Hr) as (_&Hc&_). split.
  - intros en Hen. destruct (co_queue _ Hc en Hen) as [[cl Hcl] Hit]. destruct (Hit cl Hcl) as (gr&Hg&_). eauto.
  - intros w c g cl Hw Hcl. destruct (co_jobs _ Hc w c g Hw cl Hcl) as (gr&Hg&_). eauto.
Qed.
Print Assumptions C04_jobs_belong.

(** C05. *)
Lemma doomed_mono d (bad bad' : group_uuid -> Prop) g : (forall h, bad h -> bad' h) -> doomed d bad g -> doomed d bad' g.
Proof. intros Hm. induction 1; [eapply doomed_direct; eauto|eapply doomed_via; eauto]. Qed.
Lemma failed_mono c l l' g : failed c l g -> failed c (l ++ l') g.
Proof. intros (fc&rs&o&r&Hx&?&?). exists fc, rs, o, r. split; [rewrite elem_of_app; by left|done]. Qed.
Lemma skip_sound env s : env_ok env -> reachable env s -> forall n l1 l2 c d cb g, s_log s = l1 ++ l2 -> length l1 <= n ->
  ERecv (EvaluateDAG c d cb) ∈ s_log s -> ESkip c g ∈ l1 -> doomed d (failed c l1) g.
Proof.
  intros Henv Hr n. induction n as [|n IH]; intros l1 l2 c d cb g E Hlen Hev Hin.
  - destruct l1; [by apply not_elem_of_nil in Hin|simpl in Hlen; lia].
  - apply elem_of_list_split in Hin as (k1&k2&->). rewrite <- app_assoc in E. simpl in E.
    destruct (log_justified env s Henv Hr _ _ _ E) as (d'&cb'&gr&f&Hev'&Hg&Hf&(h&hr&Hh&Hfo&Hbad)).
    destruct (submitted_unique env s Henv Hr c d cb d' cb' Hev) as [-> ->]. { rewrite E, elem_of_app. by left. }
    destruct Hbad as [Hsk|Hfail].
    + eapply doomed_via; eauto. apply (doomed_mono _ (failed c k1)); [intros; by apply failed_mono|].
      eapply (IH k1 (ESkip c g :: k2 ++ l2)); eauto. rewrite app_length in Hlen. simpl in Hlen. lia.
    + eapply doomed_direct; eauto. by apply failed_mono.
Qed.

(** Only dependents of failed groups are skipped; a skipped group is skipped once and is never sent to a worker. *)
Theorem C05_skipped_are_doomed : forall env s, env_ok env -> reachable env s ->
  forall c d cb g, ERecv (EvaluateDAG c d cb) ∈ s_log s -> ESkip c g ∈ s_log s ->
  doomed d (failed c (s_log s)) g /\ count (is_skip c g) (s_log s) = 1 /\ count (is_job c g) (s_log s) = 0 /\
  count (is_completed c g) (s_log s) = 0.
Proof.
  intros env s Henv Hr c d cb g Hev Hin. split; [eapply (skip_sound env s Henv Hr _ (s_log s) []); eauto; by rewrite app_nil_r|].
  destruct (log_justified_in env s Henv Hr _ Hin) as (l1&l2&E&(d'&cb'&gr&f&Hev'&Hg&Hf&_)).
  destruct (submitted_unique env s Henv Hr c d cb d' cb' Hev) as [-> ->]. { rewrite E, elem_of_app. by left. }
  assert (Hs : single gr). { left. intros H0. rewrite H0 in Hf. by apply not_elem_of_nil in Hf. }
  destruct (single_trace env s Henv Hr c d cb g gr Hev Hg Hs) as (_&H1&H2&H3).
  assert (0 < count (is_skip c g) (s_log s)) by (apply count_pos; eexists; split; [exact Hin|by apply bool_decide_eq_true]).
  destruct (phase_of c g (s_log s)); try lia. split; [done|]. split; [by apply H3; right|done].
Qed.
Print Assumptions C05_skipped_are_doomed.

Lemma ok_bad_false env s : env_ok env -> reachable env s -> forall c d cb f, ERecv (EvaluateDAG c d cb) ∈ s_log s ->
  all_single d -> announces_provided d c (s_log s) -> ok_file d c f (s_log s) -> bad_file d c f (s_log s) -> False.
Proof.
  intros Henv Hr c d cb f Hev Hs Ha Hok (h&hr&Hh&Hfo&Hbad). pose proof (submitted_valid env s Henv Hr c d cb Hev) as Hd.
  destruct Hok as [[k Hk]|(g&gr&fc&rs&o&Hg&Hfg&Hc&Hsucc)].
  - apply Ha in Hk. by eapply output_not_provided.
  - assert (g = h) as -> by (by eapply (outputs_disjoint d)).
    destruct Hbad as [Hsk|(fc'&rs'&o'&r&Hc'&Hin&Hne)].
    + exact (not_both env s Henv Hr c d cb h hr _ _ _ Hev Hh (Hs _ _ Hh) Hc Hsk).
    + destruct (completed_once env s Henv Hr c d cb h hr _ _ _ _ _ _ Hev Hh (Hs _ _ Hh) Hc Hc') as (->&->&->). by apply Hne, Hsucc.
Qed.

(** Missing for the full statement: DAGs with an input-less group of several executions (run several times, see
    [C06_multi_refuted]) and clients announcing files they do not provide. *)
Theorem C05_skipped_iff_doomed_partial : forall env s, env_ok env -> reachable env s ->
  forall c cl, s_clients s !! c = Some cl -> all_single (cl_dag cl) -> announces_provided (cl_dag cl) c (s_log s) ->
  forall g, ESkip c g ∈ s_log s <-> doomed (cl_dag cl) (failed c (s_log s)) g.
Proof.
  intros env s Henv Hr c cl Hcl Hs Ha g. pose proof (client_submitted env s Henv Hr c cl Hcl) as Hev.
  pose proof (client_valid env s Henv Hr c cl Hcl) as Hd.
  split; [intros Hin; by eapply C05_skipped_are_doomed|].
  assert (Hkey : forall g gr f, (g, gr) ∈ d_groups (cl_dag cl) -> f ∈ group_deps gr -> bad_file (cl_dag cl) c f (s_log s) -> ESkip c g ∈ s_log s).
  { clear g. intros g gr f Hg Hf Hbad.
    pose proof (reachable_inv2 env s Henv Hr) as Hi.
    assert (Hno : ok_file (cl_dag cl) c f (s_log s) -> False) by (intros Hok; by eapply (ok_bad_false env s Henv Hr c)).
    destruct (C04_no_group_lost env s Henv Hr c cl g gr Hcl Hg) as ([[M HM]|[Hq|[[w Hw]|Hset]]]&_); [| | |].
    - exfalso. destruct (decide (f ∈ M)) as [HfM|HfM].
      + destruct (i2_blk _ Hi c cl g M f Hcl HM HfM) as [_ Hb]. { by apply not_elem_of_nil. }
        destruct Hbad as (h&hr&Hh&Hfo&Hx). apply (Hb h hr Hh Hfo). destruct Hx as [?|(fc&rs&o&r&?&_)]; [by right|left; eauto].
      + apply Hno. by eapply (po_wait _ (i2_pos _ Hi)).
    - exfalso. apply Hno. eapply (po_item _ (i2_pos _ Hi) c cl g); [done| |done|done]. by left.
    - exfalso. apply Hno. eapply (po_item _ (i2_pos _ Hi) c cl g); [done| |done|done]. right. right. eauto.
    - destruct Hset as [(fc&rs&o&Hin)|Hin]; [|done]. exfalso. apply Hno.
      destruct (log_justified_in env s Henv Hr _ Hin) as (l1&l2&E&(d'&cb'&gr'&Hev'&Hg'&_&_&Hdeps&_)).
      destruct (submitted_unique env s Henv Hr c _ _ d' cb' Hev) as [-> ->]. { rewrite E, elem_of_app. by left. }
      assert (gr' = gr) as ->. { destruct Hd as [(_&Hnd&_) _]. by eapply groups_inj. }
      rewrite E. apply ok_file_mono. by apply Hdeps. }
  induction 1 as [g gr h hr f Hg Hf Hh Hfo Hbad|g gr h hr f Hg Hf Hh Hfo _ IH].
  - eapply Hkey; eauto. exists h, hr. auto.
  - eapply Hkey; eauto. exists h, hr. auto.
Qed.
Print Assumptions C05_skipped_iff_doomed_partial.

(** C06. *)
Lemma run_without_loss c g w l : ELost c g w ∉ l -> forall p, p = Run w \/ p = Completed \/ p = Bad ->
  fold_left (phase_step c g) l p = Run w \/ fold_left (phase_step c g) l p = Completed \/ fold_left (phase_step c g) l p = Bad.
Proof.
  induction l as [|ev l IH]; intros Hn p Hp; [done|]. simpl. apply IH; [intros Hx; apply Hn; by right|].
  assert (Hev : ev <> ELost c g w) by (intros ->; apply Hn; left).
  destruct ev; simpl; try done; destruct (decide _) as [[? ?]|]; try done; subst; destruct Hp as [-> | [-> | ->]]; auto.
  - destruct from_cache; auto.
  - destruct (decide _); [congruence|]. auto.
Qed.
Lemma phase_bad c g l : fold_left (phase_step c g) l Bad = Bad.
Proof. induction l as [|ev l IH]; [done|]. simpl. replace (phase_step c g Bad ev) with Bad; [done|]. destruct ev; simpl; try done; by destruct (decide _). Qed.

Lemma lost_dec c g w (l : list event) : ELost c g w ∈ l \/ ELost c g w ∉ l.
Proof.
  induction l as [|ev l [IH|IH]]; [right; by apply not_elem_of_nil|left; by right|].
  assert (ev = ELost c g w \/ ev <> ELost c g w) as [->|Hne]; [|left; left|].
  - destruct ev as [| | | | | | |c' g' w']; try (by right). destruct (decide (c' = c)), (decide (g' = g)), (decide (w' = w)); try (right; congruence). left. congruence.
  - right. rewrite elem_of_cons. naive_solver.
Qed.

(** A group with at most one execution or with inputs is sent to a second worker only if the first was lost. *)
Theorem C06_not_run_twice_partial : forall env s, env_ok env -> reachable env s ->
  forall l1 w c gr keys l2 w' gr' keys' l3,
  s_log s = l1 ++ EJob w c gr keys :: l2 ++ EJob w' c gr' keys' :: l3 -> g_uuid gr' = g_uuid gr -> single gr ->
  exists k1 k2, l2 = k1 ++ ELost c (g_uuid gr) w :: k2 /\
    last_recv (l1 ++ EJob w c gr keys :: k1) = Some (WorkerDisconnected w).
Proof.
  intros env s Henv Hr l1 w c gr keys l2 w' gr' keys' l3 E Hgu Hs.
  destruct (lost_dec c (g_uuid gr) w l2) as [Hin|Hnin].
  - apply elem_of_list_split in Hin as (k1&k2&->). exists k1, k2. split; [done|].
    rewrite <- app_assoc in E. simpl in E. rewrite app_comm_cons, app_assoc in E.
    by destruct (log_justified env s Henv Hr _ _ _ E) as [? _].
  - exfalso. destruct (log_justified env s Henv Hr _ _ _ E) as (d&cb&Hev&Hg&_).
    assert (Hev' : ERecv (EvaluateDAG c d cb) ∈ s_log s) by (rewrite E, elem_of_app; by left).
    destruct (single_trace env s Henv Hr c d cb (g_uuid gr) gr Hev' Hg Hs) as (Hb&_). apply Hb. rewrite E.
    unfold phase_of. rewrite fold_left_app. simpl. rewrite fold_left_app. simpl.
    rewrite decide_True by done. rewrite decide_True by done.
    set (p0 := match fold_left (phase_step c (g_uuid gr)) l1 Fresh with Fresh | Back => Run w | _ => Bad end).
    assert (Hp0 : p0 = Run w \/ p0 = Completed \/ p0 = Bad).
    { unfold p0. destruct (fold_left (phase_step c (g_uuid gr)) l1 Fresh); auto. }
    destruct (run_without_loss c (g_uuid gr) w l2 Hnin p0 Hp0) as [-> | [-> | ->]]; apply phase_bad.
Qed.
Print Assumptions C06_not_run_twice_partial.

(** C07. *)
Theorem C07_done_means_done : forall env s, env_ok env -> reachable env s ->
  forall l1 c l2, s_log s = l1 ++ ESend c MEvaluationDone :: l2 ->
  exists d cb, ERecv (EvaluateDAG c d cb) ∈ l1 /\
    (last_recv l1 = Some (ClientDisconnected c) \/ forall g gr, (g, gr) ∈ d_groups d -> settled c g l1).
Proof. intros env s Henv Hr l1 c l2 E. exact (log_justified env s Henv Hr _ _ _ E). Qed.
Print Assumptions C07_done_means_done.

(** C08. *)
Lemma settled_done env s : env_ok env -> reachable env s -> forall c cl, s_clients s !! c = Some cl -> all_single (cl_dag cl) ->
  (forall g gr, (g, gr) ∈ d_groups (cl_dag cl) -> settled c g (s_log s)) -> is_done cl = true.
Proof.
  intros Henv Hr c cl Hcl Hs Hset. destruct (reachable_inv1 env s Henv Hr) as (_&Hc&_&_).
  pose proof (reachable_inv2 env s Henv Hr) as Hi.
  assert (Hx : forall g gr, (g, gr) ∈ d_groups (cl_dag cl) -> ~ waiting cl g /\ g ∉ cl_ready cl /\ g ∉ cl_running cl).
  { intros g gr Hg. destruct (C04_exactly_one_place env s Henv Hr c cl g gr Hcl Hg (Hs g gr Hg)) as (Hn&Hrd&Hrn).
    pose proof (proj1 (settled_count s c g) (Hset g gr Hg)) as Hpos.
    rewrite Hrd, Hrn. split; [|split].
    - intros Hw. rewrite bool_decide_eq_true_2 in Hn by done. lia.
    - intros Hq. apply queue_count_pos in Hq. lia.
    - intros [w Hw]. rewrite workers_on_size in Hn. assert (Hin : w ∈ wk_set s c g) by (by apply elem_wk_set).
      assert (size (wk_set s c g) <> 0); [|lia]. intros Hz. apply size_empty_inv in Hz. set_solver. }
  pose proof (reachable_members env s Henv Hr c cl) as Hmem. simpl in Hmem.
  unfold is_done. rewrite !andb_true_iff, !bool_decide_eq_true. split_and!.
  - apply set_eq. intros g. split; [|set_solver]. intros Hin. exfalso.
    destruct (Hmem g Hcl (or_introl Hin)) as [gr Hg]. by destruct (Hx g gr Hg) as (_&?&_).
  - apply set_eq. intros g. split; [|set_solver]. intros Hin. exfalso.
    destruct (Hmem g Hcl (or_intror Hin)) as [gr Hg]. by destruct (Hx g gr Hg) as (_&_&?).
  - apply map_eq. intros g. rewrite lookup_empty. destruct (cl_missing cl !! g) as [M|] eqn:EM; [|done]. exfalso.
    destruct (co_wait _ Hc c cl Hcl g M EM) as (gr&Hg&_). destruct (Hx g gr Hg) as [Hw _]. apply Hw. by exists M.
Qed.

(** Missing for the full statement (false, see [C08_*_refuted]): completions caused by the submission itself or by
    messages of other clients. *)
Theorem C08_completion_notified_partial : forall env s m s', env_ok env -> reachable env s -> msg_ok s m -> handle env m s = ROk s' ->
  forall c cl, s_clients s' !! c = Some cl -> all_single (cl_dag cl) ->
  (exists f k, m = FileReady c f k) \/ (exists w results outs g, m = WorkerResult w results outs /\ working s w c g) ->
  (forall g gr, (g, gr) ∈ d_groups (cl_dag cl) -> settled c g (s_log s')) ->
  exists l, s_log s' = l ++ [ESend c MEvaluationDone].
Proof.
  intros env s m s' Henv Hr Hm Hh c cl Hcl Hs Hcase Hset.
  assert (Hr' : reachable env s') by (by eapply reach_step).
  pose proof (settled_done env s' Henv Hr' c cl Hcl Hs Hset) as Hdone.
  assert (exists s2, s' = check_completion c s2) as [s2 ->].
  { destruct Hcase as [(f&k&->)|(w&rs&o&g&->&Hw)].
    - unfold handle, handle_file_ready in Hh. simpl in Hh. destruct (s_clients s !! c) as [cl0|] eqn:E0.
      + match type of Hh with rbind ?a _ = _ => destruct a as [s2| | |]; try done end. injection Hh as <-. eauto.
      + injection Hh as <-. simpl in Hcl. congruence.
    - unfold handle, handle_worker_result in Hh. simpl in Hh. unfold working in Hw. rewrite Hw in Hh.
      destruct (s_clients s !! c) as [cl0|] eqn:E0.
      + destruct (alookup g (d_groups (cl_dag cl0))); [|done]. case_bool_decide; [|done].
        match type of Hh with rbind ?a _ = _ => destruct a as [s2| | |]; try done end. simpl in Hh.
        match type of Hh with rbind ?a _ = _ => destruct a as [s3| | |]; try done end. injection Hh as <-. eauto.
      + match type of Hh with rbind ?a _ = _ => destruct a as [s2| | |]; try done end. injection Hh as <-. eauto. }
  unfold check_completion in *. destruct (s_clients s2 !! c) as [cl2|] eqn:E2.
  - destruct (is_done cl2) eqn:Ed; simpl in *.
    + eauto.
    + rewrite E2 in Hcl. injection Hcl as ->. congruence.
  - rewrite E2 in Hcl. done.
Qed.
Print Assumptions C08_completion_notified_partial.

(** C09. Every message except the disconnection of a worker preserves that no connected worker is idle while jobs are queued. *)
Theorem C09_no_idle_partial : forall env s m s', env_ok env -> reachable env s -> msg_ok s m -> handle env m s = ROk s' ->
  (forall w, m <> WorkerDisconnected w) ->
  (s_queue s = [] \/ forall w, s_workers s !! w <> Some None) ->
  (s_queue s' = [] \/ forall w, s_workers s' !! w <> Some None).
Proof.
  intros env s m s' Henv Hr Hm Hh Hnd Hni. destruct (reachable_inv1 env s Henv Hr) as (Hb&Hc&_).
  destruct (handle_good env m s Henv Hb Hc Hm) as [(s2&E2&_&H)|[E _]]; [|congruence].
  rewrite E2 in Hh. injection Hh as <-. by apply H.
Qed.
Print Assumptions C09_no_idle_partial.

(** If no worker ever disconnected, no connected worker is idle while jobs are queued. *)
Theorem C09_no_idle_without_losses : forall env s, env_ok env -> reachable env s ->
  (forall w, ERecv (WorkerDisconnected w) ∉ s_log s) ->
  s_queue s = [] \/ forall w, s_workers s !! w <> Some None.
Proof.
  intros env s Henv Hr. induction Hr as [|s m s' Hr IH Hm Hh]; intros Hn; [by left|].
  destruct (handle_log env m s s' Henv Hr Hm Hh) as [l El].
  eapply (C09_no_idle_partial env s m s'); try done.
  - intros w ->. apply (Hn w). clear -Hh. unfold handle, handle_worker_disconnected in Hh. simpl in Hh.
    repeat (case_match; try done); simplify_eq; simpl; inlog.
  - apply IH. intros w Hw. apply (Hn w). rewrite El, elem_of_app. by left.
Qed.
Print Assumptions C09_no_idle_without_losses.

(** C10. *)
Theorem C10_no_deadlock : forall env s, env_ok env -> reachable env s ->
  forall c cl, s_clients s !! c = Some cl ->
  (forall f, f ∈ (d_provided (cl_dag cl)).*1 -> announced c f (s_log s)) ->
  (exists g gr, (g, gr) ∈ d_groups (cl_dag cl) /\ ~ settled c g (s_log s)) ->
  exists g gr, (g, gr) ∈ d_groups (cl_dag cl) /\ (queued s c g \/ exists w, working s w c g).
Proof.
  intros env s Henv Hr c cl Hcl Hann (g0&gr0&Hg0&Hns0).
  pose proof (client_valid env s Henv Hr c cl Hcl) as Hd. pose proof (reachable_inv2 env s Henv Hr) as Hi.
  assert (Hdec : forall g, (queued s c g \/ exists w, working s w c g) \/ ~ (queued s c g \/ exists w, working s w c g)).
  { intros g. destruct (decide (0 < queue_count c g (s_queue s))) as [Hq|Hq].
    - left. left. by apply queue_count_pos.
    - destruct (decide (wk_set s c g = ∅)) as [Hw|Hw].
      + right. intros [Hx|[w Hx]]; [by apply queue_count_pos in Hx|]. apply elem_wk_set in Hx. set_solver.
      + left. right. destruct (set_choose_L _ Hw) as [w Hx]. exists w. by apply elem_wk_set in Hx. }
  assert (Hfin : (exists kg, kg ∈ d_groups (cl_dag cl) /\ (queued s c kg.1 \/ exists w, working s w c kg.1)) \/
    forall kg, kg ∈ d_groups (cl_dag cl) -> ~ (queued s c kg.1 \/ exists w, working s w c kg.1)).
  { clear -Hdec. induction (d_groups (cl_dag cl)) as [|kg l IH]; [right; intros kg Hx; by apply not_elem_of_nil in Hx|].
    destruct IH as [(kg'&?&?)|IH]; [left; exists kg'; split; [by right|done]|].
    destruct (Hdec kg.1) as [?|Hn]; [left; exists kg; split; [left|done]|]. right.
    intros kg' Hx. apply elem_of_cons in Hx as [->|Hx]; auto. }
  destruct Hfin as [([g gr]&Hg&Hx)|Hno]; [eauto|]. exfalso.
  assert (Hwait : forall g gr, (g, gr) ∈ d_groups (cl_dag cl) -> ~ settled c g (s_log s) -> waiting cl g).
  { intros g gr Hg Hns. destruct (C04_no_group_lost env s Henv Hr c cl g gr Hcl Hg) as ([?|[Hq|[Hw|?]]]&_); [done| | |done].
    - exfalso. eapply (Hno (g, gr)); [done|by left].
    - exfalso. eapply (Hno (g, gr)); [done|by right]. }
  eapply (chain_cycle (depends (cl_dag cl)) ((d_groups (cl_dag cl)).*1)
    (fun g => exists gr, (g, gr) ∈ d_groups (cl_dag cl) /\ ~ settled c g (s_log s))) with (x := g0).
  - intros g (gr&Hg&_). apply elem_of_list_fmap. by exists (g, gr).
  - intros g (gr&Hg&Hns). destruct (Hwait g gr Hg Hns) as [M HM].
    destruct (C04_no_group_lost env s Henv Hr c cl g gr Hcl Hg) as (_&_&_&HMs). destruct (HMs M HM) as [Hne Hsub].
    destruct (set_choose_L _ Hne) as [f Hf]. specialize (Hsub f Hf).
    destruct (i2_blk _ Hi c cl g M f Hcl HM Hf) as [Hna Hnp]; [by apply not_elem_of_nil|].
    unfold group_deps in Hsub. apply elem_of_list_bind in Hsub as (e&Hfe&He).
    destruct (wf_deps _ (proj2 Hd) e f) as [Ho|Hp]; [apply dag_execs_inv; eauto|done| |by apply Hann in Hp].
    unfold dag_outputs in Ho. apply elem_of_list_bind in Ho as (e'&Hfe'&He').
    apply dag_execs_inv in He' as (h&hr&Hh&He'). exists h. split.
    + exists gr, hr, e, e', f. auto 6.
    + exists hr. split; [done|]. apply (Hnp h hr Hh). unfold group_outputs. apply elem_of_list_bind. eauto.
  - apply (wf_acyclic _ (proj2 Hd)).
  - eauto.
Qed.
Print Assumptions C10_no_deadlock.

(** C11. *)
Lemma entry_le_urgent a b : entry_le a b = true -> urgent_le a b.
Proof.
  unfold entry_le, urgent_le. case_bool_decide as H1; [|rewrite bool_decide_eq_true; lia].
  case_bool_decide as H2; [intros _; lia|]. rewrite bool_decide_eq_true. lia.
Qed.
Lemma entry_gt_urgent a b : entry_le a b = false -> urgent_le b a.
Proof.
  unfold entry_le, urgent_le. case_bool_decide as H1; [|rewrite bool_decide_eq_false; lia].
  case_bool_decide as H2; [intros _; lia|]. rewrite bool_decide_eq_false. lia.
Qed.
Lemma urgent_trans a b c : urgent_le a b -> urgent_le b c -> urgent_le a c.
Proof. unfold urgent_le. lia. Qed.
Theorem C11_pop_is_most_urgent : forall q en r, pop_max q = Some (en, r) ->
  q ≡ₚ en :: r /\ forall en', en' ∈ q -> urgent_le en' en.
Proof.
  intros q en r H. split; [by apply pop_max_perm|]. revert en r H. induction q as [|x q IH]; intros en r; simpl; [done|].
  destruct (pop_max q) as [[m r']|] eqn:E.
  - specialize (IH m r' eq_refl). destruct (entry_le x m) eqn:Ele; intros [= <- <-] en' Hin; apply elem_of_cons in Hin as [->|Hin].
    + by apply entry_le_urgent.
    + by apply IH.
    + unfold urgent_le. lia.
    + eapply urgent_trans; [by apply IH|]. by apply entry_gt_urgent.
  - intros [= <- <-] en' Hin. apply pop_max_None in E. subst q. apply elem_of_list_singleton in Hin as ->. unfold urgent_le. lia.
Qed.
Print Assumptions C11_pop_is_most_urgent.

(** A free worker gets the most urgent queued job (and only it leaves the queue). *)
Theorem C11_assignment_in_priority_order : forall env s w, env_ok env -> reachable env s ->
  s_workers s !! w = Some None -> s_queue s <> [] ->
  exists s' en gr keys sends, assign_one s w = ROk s' /\ s_queue s ≡ₚ en :: s_queue s' /\
    (forall en', en' ∈ s_queue s -> urgent_le en' en) /\ working s' w (en_client en) (en_group en) /\
    s_log s' = s_log s ++ EJob w (en_client en) gr keys :: sends /\ g_uuid gr = en_group en.
Proof.
  intros env s w Henv Hr Hw Hq. destruct (reachable_inv1 env s Henv Hr) as (_&Hc&_).
  unfold assign_one. rewrite Hw. destruct (pop_max (s_queue s)) as [[en q]|] eqn:Ep; [|by apply pop_max_None in Ep].
  destruct (C11_pop_is_most_urgent _ _ _ Ep) as [Hp Hu]. simpl.
  destruct (co_queue _ Hc en) as [[cl Hcl] Hit]; [simpl; rewrite Hp; left|]. simpl in Hcl. rewrite Hcl.
  destruct (Hit cl Hcl) as (gr&Hgr&Hh). rewrite (proj2 (core_lookup _ _ _ _ _ Hc Hcl) Hgr).
  destruct (keys_walk (cl_handles cl) gr Hh) as (keys&Ek&_). simpl. rewrite Ek. simpl.
  eexists _, en, gr, keys, _. split; [reflexivity|]. simpl. split; [done|]. split; [done|]. split; [|split; [reflexivity|]].
  - unfold working. simpl. apply lookup_insert.
  - destruct (co_dag _ Hc _ cl Hcl) as [(_&_&Hk) _]. by apply Hk.
Qed.
Print Assumptions C11_assignment_in_priority_order.

(** C12. What is inserted in the cache comes from a worker and has no internal error; all such results are inserted. *)
Theorem C12_cache_insertions : forall env s, env_ok env -> reachable env s ->
  (forall l1 c gr handles results l2, s_log s = l1 ++ ECacheInsert c gr handles results :: l2 ->
     (forall r, r ∈ results -> is_internal_error (res_status r) = false) /\
     exists outs, ECompleted c (g_uuid gr) false results outs ∈ l1 /\
       (forall f, f ∈ group_outputs gr -> handles !! f = outs !! f) /\
       (forall f, f ∈ group_deps gr -> is_Some (handles !! f)) /\
       (forall f k, handles !! f = Some k -> provenance c f k l1)) /\
  (forall l1 c g results outs l2, s_log s = l1 ++ ECompleted c g false results outs :: l2 ->
     (forall r, r ∈ results -> is_internal_error (res_status r) = false) ->
     exists sends gr handles rest, l2 = sends ++ ECacheInsert c gr handles results :: rest /\ g_uuid gr = g /\
        forall ev', ev' ∈ sends -> exists c' m, ev' = ESend c' m).
Proof.
  intros env s Henv Hr. split.
  - intros l1 c gr handles results l2 E. destruct (log_justified env s Henv Hr _ _ _ E) as (outs&?&?&?&?&?). eauto 10.
  - intros l1 c g results outs l2 E. exact (log_cached env s Henv Hr _ _ _ E).
Qed.
Print Assumptions C12_cache_insertions.

(** C13. *)
Lemma stops_in c ws w g : (w, Some (c, g)) ∈ ws -> EStop w g ∈ stops c ws.
Proof. intros Hin. unfold stops. apply elem_of_list_bind. eexists. split; [|exact Hin]. simpl. rewrite bool_decide_eq_true_2 by done. left. Qed.
Theorem C13_disconnection : forall env s c s', env_ok env -> reachable env s -> handle env (ClientDisconnected c) s = ROk s' ->
  s_clients s' = delete c (s_clients s) /\ s_workers s' = s_workers s /\
  s_queue s' = filter (fun en => en_client en <> c) (s_queue s) /\
  exists l, s_log s' = s_log s ++ ERecv (ClientDisconnected c) :: l /\
    (forall w g, EStop w g ∈ l <-> working s w c g) /\ (forall ev, ev ∈ l -> ev = ESend c MEvaluationDone \/ exists w g, ev = EStop w g).
Proof.
  intros env s c s' Henv Hr Hh. destruct (reachable_inv1 env s Henv Hr) as (_&Hc&_).
  assert (E : s' = gone_state c (e_ord env (s_tick s) _ (map_to_list (s_workers s))) (emit [ERecv (ClientDisconnected c)] s)).
  { unfold handle, handle_client_disconnected in Hh. simpl in Hh. unfold gone_state, farewell, stops. simpl.
    destruct (s_clients s !! c) as [cl|]; [destruct (is_done cl)|]; simpl in Hh; injection Hh as <-; unfold emit, tick; simpl; try done.
    f_equal. by rewrite <- app_assoc. }
  rewrite E. simpl. split; [done|]. split; [done|]. split.
  - assert (Hq : forall en, en ∈ s_queue s -> is_Some (s_clients s !! en_client en)) by (intros en Hin; by destruct (co_queue _ Hc en Hin)).
    clear -Hq. induction (s_queue s) as [|en q IH]; [done|]. rewrite !filter_cons. rewrite IH by (intros; apply Hq; by right).
    destruct (decide (en_client en <> c)) as [Hne|He].
    + rewrite decide_True; [done|]. rewrite lookup_delete_ne by done. apply Hq. left.
    + rewrite decide_False; [done|]. destruct (decide (en_client en = c)) as [->|]; [|done]. rewrite lookup_delete. by intros [? ?].
  - eexists. rewrite <- app_assoc. split; [reflexivity|]. split.
    + intros w g. rewrite elem_of_app. split.
      * intros [Hin|Hin]; [by apply farewell_cases in Hin as [? _]|]. apply stops_cases in Hin as (w'&g'&[= -> ->]&Hin).
        rewrite (eo_ord _ Henv) in Hin. by apply elem_of_map_to_list in Hin.
      * intros Hw. right. apply stops_in. rewrite (eo_ord _ Henv). by apply elem_of_map_to_list.
    + intros ev Hin. apply elem_of_app in Hin as [Hin|Hin]; [left; by apply farewell_cases in Hin as [? _]|].
      apply stops_cases in Hin as (w&g&->&_). eauto.
Qed.
Print Assumptions C13_disconnection.

Lemma concerns_ev_client c ev : concerns c ev -> ev_client ev = Some c.
Proof. destruct ev as [|c' m| | | | | |]; simpl; try done; try congruence. destruct m; simpl; try done; congruence. Qed.
(** After the disconnection nothing concerns the client any more, whatever messages are handled. *)
Theorem C13_no_message_after : forall env s c s', env_ok env -> reachable env s ->
  (exists d cb, ERecv (EvaluateDAG c d cb) ∈ s_log s) -> s_clients s !! c = None -> continues env s s' ->
  s_clients s' !! c = None /\ exists l, s_log s' = s_log s ++ l /\ forall ev, ev ∈ l -> ~ concerns c ev.
Proof.
  intros env s c s' Henv Hr Hev Hnone Hcont. induction Hcont as [s|s s1 s2 (m&Hm&Hh) _ IH].
  - split; [done|]. exists []. rewrite app_nil_r. split; [done|]. intros ev Hx. by apply not_elem_of_nil in Hx.
  - destruct (reachable_inv1 env s Henv Hr) as (Hb&Hc&Hs&_).
    assert (Hstep : s_clients s1 !! c = None /\ exists l, s_log s1 = s_log s ++ l /\ forall ev, ev ∈ l -> ~ concerns c ev).
    { destruct (handle_good env m s Henv Hb Hc Hm) as [(s1'&E1&Hst&_)|[E _]]; [|congruence].
      rewrite E1 in Hh. injection Hh as <-. clear IH E1.
      assert (Hgen : forall x y, rtc step x y -> (exists d cb, ERecv (EvaluateDAG c d cb) ∈ s_log (x_s x)) -> s_clients (x_s x) !! c = None ->
        s_clients (x_s y) !! c = None /\ exists l, s_log (x_s y) = s_log (x_s x) ++ l /\ forall ev, ev ∈ l -> ~ concerns c ev).
      { clear. intros x y. induction 1 as [x|x y z H1 _ IH]; intros Hev Hnone.
        - split; [done|]. exists []. rewrite app_nil_r. split; [done|]. intros ev Hx. by apply not_elem_of_nil in Hx.
        - destruct (step_events _ _ H1) as (l1&E1&Hl1).
          assert (Hny : s_clients (x_s y) !! c = None).
          { destruct H1 as [Hst|Hst].
            - pose proof (istep_grows _ _ Hst c) as Hg. rewrite Hnone in Hg. by destruct (s_clients (x_s y) !! c).
            - destruct Hst as [s m Hm Hm2|s c0 d cb cl q Hd Hf Hs'|s c0 cl f k Hc|s w c0 cl g gr results outs Hr Hw Hc Hg Hlen Ho
                |s w c0 cl g gr Hr Hw Hc Hg|s w Hw|s w Hw|s c0 ws Hr Hpm|s c0 r w l Hr|s c0 cl Hc Hdone]; simpl in *; try done.
              + rewrite lookup_insert_ne; [done|]. intros ->. destruct Hev as (d'&cb'&Hin). by eapply Hf.
              + rewrite lookup_insert_ne; [done|]. congruence.
              + rewrite completed_clients. rewrite lookup_insert_ne; [done|]. congruence.
              + rewrite lookup_insert_ne; [done|]. congruence.
              + apply lookup_delete_None. by right. }
          destruct IH as (Hz&l2&E2&Hl2).
          + destruct Hev as (d&cb&Hin). exists d, cb. rewrite E1, elem_of_app. by left.
          + done.
          + split; [done|]. exists (l1 ++ l2). rewrite E2, E1, app_assoc. split; [done|].
            intros ev Hin. apply elem_of_app in Hin as [Hin|Hin]; [|by apply Hl2].
            intros Hx. apply concerns_ev_client in Hx. destruct (Hl1 ev c Hin Hx) as [cl Hcl]. congruence. }
      by apply (Hgen _ _ Hst). }
    destruct Hstep as (Hn1&l1&E1&Hl1). destruct IH as (Hn2&l2&E2&Hl2).
    + by eapply reach_step.
    + destruct Hev as (d&cb&Hin). exists d, cb. rewrite E1, elem_of_app. by left.
    + done.
    + split; [done|]. exists (l1 ++ l2). rewrite E2, E1, app_assoc. split; [done|].
      intros ev Hin. apply elem_of_app in Hin as [Hin|Hin]; auto.
Qed.
Print Assumptions C13_no_message_after.

(** C14. *)
Theorem C14_results : forall env s w results outs, env_ok env -> reachable env s -> msg_ok s (WorkerResult w results outs) ->
  let s1 := emit [ERecv (WorkerResult w results outs)] s in
  match s_workers s !! w with
  | None => handle env (WorkerResult w results outs) s = ROk s1
  | Some None => handle env (WorkerResult w results outs) s = ROk (set_workers (delete w (s_workers s)) s1)
  | Some (Some (c, g)) =>
    match s_clients s !! c with
    | None => exists s', handle env (WorkerResult w results outs) s = ROk s' /\ s_clients s' !! c = None
    | Some cl => exists gr, (g, gr) ∈ d_groups (cl_dag cl) /\
        if decide (length results = length (g_execs gr)) then
          exists s' l, handle env (WorkerResult w results outs) s = ROk s' /\
            s_log s' = s_log s ++ ERecv (WorkerResult w results outs) :: ECompleted c g false results outs :: l /\
            (forall c' g' r o, ECompleted c' g' false r o ∉ l)
        else handle env (WorkerResult w results outs) s = RBail
    end
  end.
Proof.
  intros env s w results outs Henv Hr Hm s1. destruct (reachable_inv1 env s Henv Hr) as (Hb&Hc&_).
  destruct (s_workers s !! w) as [[[c g]|]|] eqn:Ew.
  - destruct (s_clients s !! c) as [cl|] eqn:Ec.
    + destruct (co_jobs _ Hc w c g Ew cl Ec) as (gr&Hgr&Hh). exists gr. split; [done|]. destruct (decide _) as [Hlen|Hlen].
      * destruct (worker_result_detail env s w c g cl gr results outs Henv Hr Hm Ew Ec Hgr Hlen) as (s3&E3&Hst).
        destruct (isteps_not_worker _ _ Hst) as (l&El&Hl). simpl in El. rewrite completed_log in El.
        assert (Hgu : g_uuid gr = g). { destruct (co_dag _ Hc _ cl Ec) as [(_&_&Hk) _]. by apply Hk. }
        set (l1 := notify_done c (cl_cb cl) (g_execs gr) results ++
            (if any_internal results then [] else [ECacheInsert c gr (outs ∪ cl_handles cl) results])) in *.
        assert (Hx : exists l2, s_log (check_completion c s3) = s_log s3 ++ l2 /\ forall c' g' r o, ECompleted c' g' false r o ∉ l2).
        { unfold check_completion. destruct (s_clients s3 !! c) as [cl3|]; [destruct (is_done cl3)|];
            [eexists; split; [reflexivity|]|exists []; rewrite app_nil_r; split; [done|]..]; intros c' g' r o Hin;
            first [by apply not_elem_of_nil in Hin|by apply elem_of_list_singleton in Hin]. }
        destruct Hx as (l2&El2&Hl2). exists (check_completion c s3), (l1 ++ l ++ l2). split; [done|]. split.
        -- rewrite El2, El, Hgu. simpl. rewrite <- !app_assoc. simpl. unfold l1. by rewrite <- !app_assoc.
        -- intros c' g' r o Hin. apply elem_of_app in Hin as [Hin|Hin]; [|apply elem_of_app in Hin as [Hin|Hin]; [by eapply Hl|by eapply Hl2]].
           unfold l1 in Hin. apply elem_of_app in Hin as [Hin|Hin]; [by apply notify_done_is_send in Hin|].
           destruct (any_internal results); [by apply not_elem_of_nil in Hin|]. by apply elem_of_list_singleton in Hin.
      * unfold handle, handle_worker_result. simpl. rewrite Ew, Ec. rewrite (proj2 (core_lookup _ _ _ _ _ Hc Ec) Hgr).
        rewrite bool_decide_eq_false_2; [done|]. congruence.
    + destruct (C03_no_panic env s _ Henv Hr Hm) as [[s' Hs']|[_ (w'&r'&o'&c'&g'&cl'&gr'&[= <- <- <-]&Hw'&Hcl'&_)]].
      * exists s'. split; [done|]. destruct (reachable_steps env s' Henv) as (_&_&Hc'); [by eapply reach_step|].
        destruct (s_clients s' !! c) as [cl|] eqn:Ecl; [|done]. exfalso.
        destruct (ba_job _ Hb w c g Ew) as (d&cb&Hev).
        destruct (C13_no_message_after env s c s' Henv Hr) as [Hx _]; [eauto|done| |congruence].
        apply rtc_once. eexists. eauto.
      * exfalso. unfold working in Hw'. rewrite Ew in Hw'. injection Hw' as <- <-. congruence.
  - unfold handle, handle_worker_result. simpl. by rewrite Ew.
  - unfold handle, handle_worker_result. simpl. by rewrite Ew.
Qed.
Print Assumptions C14_results.

(** C15. *)
Theorem C15_notifications : forall env s, env_ok env -> reachable env s ->
  forall c d cb g gr e, ERecv (EvaluateDAG c d cb) ∈ s_log s -> (g, gr) ∈ d_groups d -> e ∈ g_execs gr ->
  let n p := count p (s_log s) in
  (e_uuid e ∉ w_executions cb -> n (is_done_msg c (e_uuid e)) = 0 /\ n (is_skip_msg c (e_uuid e)) = 0 /\ n (is_start_msg c (e_uuid e)) = 0) /\
  (e_uuid e ∈ w_executions cb -> n (is_done_msg c (e_uuid e)) = n (is_completed c g) /\ n (is_skip_msg c (e_uuid e)) = n (is_skip c g) /\
     n (is_start_msg c (e_uuid e)) = n (is_job c g)) /\
  (single gr -> n (is_done_msg c (e_uuid e)) + n (is_skip_msg c (e_uuid e)) <= 1) /\
  (forall l1 r l2, s_log s = l1 ++ ESend c (MDone (e_uuid e) r) :: l2 ->
     res_was_cached r = true \/ exists w, ESend c (MStarted (e_uuid e) w) ∈ l1).
Proof.
  intros env s Henv Hr c d cb g gr e Hev Hg He n.
  pose proof (reachable_tallies env s Henv Hr c d cb g gr e Hev Hg He) as [T1 T2 T3]. simpl in T1, T2, T3.
  split; [|split; [|split]].
  - intros Hw. rewrite bool_decide_eq_false_2 in T1, T2, T3 by done. done.
  - intros Hw. rewrite bool_decide_eq_true_2 in T1, T2, T3 by done. done.
  - intros Hs. destruct (single_trace env s Henv Hr c d cb g gr Hev Hg Hs) as (_&H1&H2&_). unfold n. rewrite T1, T2.
    destruct (bool_decide _); [|lia]. destruct (phase_of c g (s_log s)); lia.
  - intros l1 r l2 E. destruct (log_justified env s Henv Hr _ _ _ E) as (d'&cb'&gr'&x&fc&rs&o&Hev'&Hg'&Hc'&Hzip&Hxe&Hwt).
    assert (Hin1 : forall ev, ev ∈ l1 -> ev ∈ s_log s) by (intros ev Hx; rewrite E, elem_of_app; by left).
    destruct (submitted_unique env s Henv Hr c d cb d' cb' Hev (Hin1 _ Hev')) as [-> ->].
    pose proof (submitted_valid env s Henv Hr c d cb Hev) as Hd.
    apply elem_of_list_split in Hc' as (k1&k2&->).
    assert (E' : s_log s = k1 ++ ECompleted c (g_uuid gr') fc rs o :: k2 ++ ESend c (MDone (e_uuid e) r) :: l2) by (rewrite E, <- app_assoc; done).
    destruct (log_justified env s Henv Hr _ _ _ E') as (d2&cb2&gr2&Hev2&_&_&_&_&Hfc).
    destruct fc.
    + left. apply Hfc. by apply elem_of_zip_r in Hzip.
    + right. destruct (submitted_unique env s Henv Hr c d cb d2 cb2 Hev) as [-> ->].
      { rewrite E', elem_of_app. by left. }
      destruct (reachable_started env s Henv Hr _ _ _ _ _ _ E' d cb gr' x) as [w Hin]; try done.
      * by apply elem_of_zip_l in Hzip.
      * by rewrite Hxe.
      * rewrite Hxe in Hin. exists w. rewrite elem_of_app. by left.
Qed.
Print Assumptions C15_notifications.
