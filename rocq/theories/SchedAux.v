(** Consequences of the invariants, used in SchedProps.v. *)
From Verif Require Import CheckDagProofs CheckDagProofs2 SchedSpec SchedSteps SchedWalk SchedExt SchedReach SchedView SchedView2 SchedFiles SchedFiles2 SchedFiles3 SchedFiles4 SchedCount.
Local Arguments mu : simpl never.

(** A relation without cycles on a finite set: not every element has a successor. *)
Lemma chain_cycle {A} `{EqDecision A} (R : A -> A -> Prop) (l : list A) (P : A -> Prop) :
  (forall x, P x -> x ∈ l) -> (forall x, P x -> exists y, R x y /\ P y) -> (forall x, ~ tc R x x) -> forall x, ~ P x.
Proof.
  intros Hl Hs Ha.
  assert (Hgen : forall n vs x, length l - length vs <= n -> NoDup vs -> (forall v, v ∈ vs -> v ∈ l /\ tc R v x) -> P x -> False).
  { induction n as [|n IH]; intros vs x Hn Hnd Hv HP.
    - assert (Hx : x ∉ vs). { intros Hin. destruct (Hv x Hin) as [_ Ht]. by apply (Ha x). }
      assert (Hsub : (x :: vs) ⊆+ l).
      { apply NoDup_submseteq; [by constructor|]. intros y Hy. apply elem_of_cons in Hy as [->|Hy]; [auto|by apply Hv]. }
      apply submseteq_length in Hsub. simpl in Hsub. lia.
    - assert (Hx : x ∉ vs). { intros Hin. destruct (Hv x Hin) as [_ Ht]. by apply (Ha x). }
      destruct (Hs x HP) as (y&HR&HP').
      apply (IH (x :: vs) y); [simpl; lia|by constructor| |done].
      intros v Hin. apply elem_of_cons in Hin as [->|Hin].
      + split; [auto|]. by apply tc_once.
      + destruct (Hv v Hin). split; [done|]. by eapply tc_r. }
  intros x HP. eapply (Hgen (length l) [] x); [simpl; lia|constructor| |done]. intros v Hv. by apply not_elem_of_nil in Hv.
Qed.

Section reach.
  Context (env : env) (s : state) (Henv : env_ok env) (Hr : reachable env s).
  Let Hb : base (Cfg [] [] s). Proof. by destruct (reachable_inv1 env s Henv Hr). Qed.
  Let Hc : core (Cfg [] [] s). Proof. by destruct (reachable_inv1 env s Henv Hr) as (_&?&_). Qed.
  Let Hi : inv2 (Cfg [] [] s). Proof. by eapply reachable_inv2. Qed.

  Lemma client_submitted c cl : s_clients s !! c = Some cl -> ERecv (EvaluateDAG c (cl_dag cl) (cl_cb cl)) ∈ s_log s.
  Proof. apply (ba_client _ Hb). Qed.
  Lemma client_valid c cl : s_clients s !! c = Some cl -> valid_dag (cl_dag cl).
  Proof. apply (co_dag _ Hc). Qed.
  Lemma submitted_unique c d cb d' cb' : ERecv (EvaluateDAG c d cb) ∈ s_log s -> ERecv (EvaluateDAG c d' cb') ∈ s_log s -> d' = d /\ cb' = cb.
  Proof. apply (sb_uniq _ (i2_subs _ Hi)). Qed.
  Lemma submitted_valid c d cb : ERecv (EvaluateDAG c d cb) ∈ s_log s -> valid_dag d.
  Proof. apply (sb_valid _ (i2_subs _ Hi)). Qed.
  Lemma log_justified l1 ev l2 : s_log s = l1 ++ ev :: l2 -> justified l1 ev.
  Proof. apply (i2_just _ Hi). Qed.
  Lemma log_justified_in ev : ev ∈ s_log s -> exists l1 l2, s_log s = l1 ++ ev :: l2 /\ justified l1 ev.
  Proof. intros Hin. apply elem_of_list_split in Hin as (l1&l2&E). exists l1, l2. split; [done|]. by eapply log_justified. Qed.
  Lemma log_cached l1 ev l2 : s_log s = l1 ++ ev :: l2 -> cached_after ev l2.
  Proof. apply (i2_cached _ Hi). Qed.
  Lemma group_view c cl g gr : s_clients s !! c = Some cl -> (g, gr) ∈ d_groups (cl_dag cl) -> vinv gr (view_of (Cfg [] [] s) c cl g).
  Proof.
    intros Hcl Hg. apply vreach_inv; [|by apply (vw_live _ (i2_views _ Hi))].
    eapply wf_nonempty; [apply (client_valid c cl Hcl)|done].
  Qed.
  Lemma trace_view c d cb g gr : ERecv (EvaluateDAG c d cb) ∈ s_log s -> (g, gr) ∈ d_groups d ->
    exists v, vinv gr v /\ lv v = lview_of c g (s_log s).
  Proof.
    intros Hev Hg. destruct (vw_log _ (i2_views _ Hi) c d cb g gr Hev Hg) as (v&Hv&Hl). exists v. split; [|done].
    apply vreach_inv; [|done]. eapply wf_nonempty; [apply (submitted_valid c d cb Hev)|done].
  Qed.
  Lemma settled_count c g : settled c g (s_log s) <-> 0 < count (is_completed c g) (s_log s) + count (is_skip c g) (s_log s).
  Proof.
    split.
    - intros [(fc&r&o&Hin)|Hin].
      + assert (0 < count (is_completed c g) (s_log s)); [|lia]. apply count_pos. eexists. split; [exact Hin|]. simpl. by apply bool_decide_eq_true.
      + assert (0 < count (is_skip c g) (s_log s)); [|lia]. apply count_pos. eexists. split; [exact Hin|]. simpl. by apply bool_decide_eq_true.
    - intros H. assert (0 < count (is_completed c g) (s_log s) \/ 0 < count (is_skip c g) (s_log s)) as [Hy|Hy] by lia;
        apply count_pos in Hy as (ev&Hin&He); destruct ev; try done; simpl in He; apply bool_decide_eq_true in He as [-> ->].
      + left. eauto.
      + by right.
  Qed.
  (** Counting for groups queued once, also after the client has left. *)
  Lemma single_trace c d cb g gr : ERecv (EvaluateDAG c d cb) ∈ s_log s -> (g, gr) ∈ d_groups d -> single gr ->
    phase_of c g (s_log s) <> Bad /\
    count (is_completed c g) (s_log s) = (match phase_of c g (s_log s) with Completed => 1 | _ => 0 end) /\
    count (is_skip c g) (s_log s) = (match phase_of c g (s_log s) with Skipped => 1 | _ => 0 end) /\
    (phase_of c g (s_log s) = Fresh \/ phase_of c g (s_log s) = Skipped -> count (is_job c g) (s_log s) = 0).
  Proof.
    intros Hev Hg Hs. destruct (trace_view c d cb g gr Hev Hg) as (v&(_&_&_&Hv)&El).
    destruct (Hv Hs) as (H1&_&_&_&_&_&H2&H3&H4). rewrite El in H1, H2, H3, H4. simpl in *. auto.
  Qed.
  Lemma not_both c d cb g gr fc r o : ERecv (EvaluateDAG c d cb) ∈ s_log s -> (g, gr) ∈ d_groups d -> single gr ->
    ECompleted c g fc r o ∈ s_log s -> ESkip c g ∈ s_log s -> False.
  Proof.
    intros Hev Hg Hs H1 H2. destruct (single_trace c d cb g gr Hev Hg Hs) as (_&Hc1&Hc2&_).
    assert (0 < count (is_completed c g) (s_log s)) by (apply count_pos; eexists; split; [exact H1|by apply bool_decide_eq_true]).
    assert (0 < count (is_skip c g) (s_log s)) by (apply count_pos; eexists; split; [exact H2|by apply bool_decide_eq_true]).
    destruct (phase_of c g (s_log s)); lia.
  Qed.
  Lemma completed_once c d cb g gr fc r o fc' r' o' : ERecv (EvaluateDAG c d cb) ∈ s_log s -> (g, gr) ∈ d_groups d -> single gr ->
    ECompleted c g fc r o ∈ s_log s -> ECompleted c g fc' r' o' ∈ s_log s -> fc' = fc /\ r' = r /\ o' = o.
  Proof.
    intros Hev Hg Hs H1 H2. destruct (single_trace c d cb g gr Hev Hg Hs) as (_&Hc1&_&_).
    assert (Hle : count (is_completed c g) (s_log s) <= 1) by (destruct (phase_of c g (s_log s)); lia).
    apply elem_of_list_split in H1 as (l1&l2&E). rewrite E in H2, Hle. rewrite count_app, count_cons in Hle. simpl in Hle.
    rewrite bool_decide_eq_true_2 in Hle by done.
    assert (Hz1 : count (is_completed c g) l1 = 0) by lia. assert (Hz2 : count (is_completed c g) l2 = 0) by lia.
    apply elem_of_app in H2 as [H2|H2]; [|apply elem_of_cons in H2 as [H2|H2]].
    - apply (count_zero_inv _ _ Hz1) in H2. simpl in H2. by rewrite bool_decide_eq_true_2 in H2.
    - by simplify_eq.
    - apply (count_zero_inv _ _ Hz2) in H2. simpl in H2. by rewrite bool_decide_eq_true_2 in H2.
  Qed.
End reach.

Lemma outputs_disjoint d g gr g' gr' f : valid_dag d -> (g, gr) ∈ d_groups d -> (g', gr') ∈ d_groups d ->
  f ∈ group_outputs gr -> f ∈ group_outputs gr' -> g = g'.
Proof.
  intros [(_&Hnd&_) Hwf] Hg Hg' Hf Hf'. destruct (decide (g = g')) as [|Hne]; [done|]. exfalso.
  pose proof (wf_files _ Hwf) as H. apply NoDup_app in H as (H&_&_).
  assert (Hb : dag_outputs d = d_groups d ≫= (fun kg => group_outputs kg.2)).
  { unfold dag_outputs, dag_execs. clear. induction (d_groups d) as [|[k x] l IH]; [done|]. simpl. rewrite bind_app. f_equal. exact IH. }
  rewrite Hb in H. apply bind_nodup in H as [_ H]. apply elem_of_list_split in Hg as (l1&l2&E).
  eapply (H l1 (g, gr) l2 (g', gr') f E); [|done|done]. rewrite E in Hg'.
  rewrite elem_of_app, elem_of_cons in Hg'. rewrite elem_of_app. destruct Hg' as [?|[?|?]]; [by left|congruence|by right].
Qed.
Lemma output_not_provided d g gr f : valid_dag d -> (g, gr) ∈ d_groups d -> f ∈ group_outputs gr -> f ∉ (d_provided d).*1.
Proof.
  intros [_ Hwf] Hg Hf Hp. pose proof (wf_files _ Hwf) as H. apply NoDup_app in H as (_&H&_). apply (H f); [|done].
  unfold group_outputs in Hf. apply elem_of_list_bind in Hf as (e&Hf&He).
  unfold dag_outputs. apply elem_of_list_bind. exists e. split; [done|]. apply dag_execs_inv. eauto.
Qed.

(** ** The handling of a result, in detail *)
Lemma worker_result_detail env s w c g cl gr results outs : env_ok env -> reachable env s ->
  msg_ok s (WorkerResult w results outs) -> working s w c g -> s_clients s !! c = Some cl -> (g, gr) ∈ d_groups (cl_dag cl) ->
  length results = length (g_execs gr) ->
  exists s3, handle env (WorkerResult w results outs) s = ROk (check_completion c s3) /\
    rtc istep (Cfg [] (map (pair c) (group_outputs gr)) (completed_state w c cl g gr results outs (emit [ERecv (WorkerResult w results outs)] s)))
      (Cfg [] [] s3).
Proof.
  intros Henv Hreach Hmsg Hw Ec Hgr Hlen. destruct (reachable_inv1 env s Henv Hreach) as (Hb0&Hcore0&_).
  set (s1 := emit [ERecv (WorkerResult w results outs)] s).
  assert (Hrecv : rtc step (Cfg [] [] s) (Cfg [] [] s1)) by (apply rtc_once; right; by apply xs_recv).
  unfold handle, handle_worker_result. fold s1.
  unfold working in Hw. unfold s1 at 1. simpl. rewrite Hw, Ec.
  destruct (co_jobs _ Hcore0 w c g Hw cl Ec) as (gr'&Hgr'&Hh).
  assert (gr' = gr) as ->. { destruct (co_dag _ Hcore0 _ cl Ec) as [(_&Hnd&_) _]. by eapply groups_inj. }
  rewrite (proj2 (core_lookup _ _ _ _ _ Hcore0 Ec) Hgr).
  rewrite (bool_decide_eq_true_2 (length (g_execs gr) = length results)) by done.
  assert (Houts : forall f, f ∈ group_outputs gr -> is_Some (outs !! f)) by (eapply Hmsg; eauto).
  set (s2 := completed_state w c cl g gr results outs s1).
  assert (H2 : rtc step (Cfg [] [] s) (Cfg [] (map (pair c) (group_outputs gr)) s2)).
  { eapply rtc_r; [exact Hrecv|]. right. apply xs_complete; try done. apply last_recv_snoc. }
  destruct (steps_base_core _ _ Hb0 Hcore0 H2) as [Hb2 Hcore2].
  set (cl2 := set_handles (outs ∪ cl_handles cl) (set_running (cl_running cl ∖ {[g]}) cl)).
  assert (Hcl2 : s_clients s2 !! c = Some cl2) by (unfold s2; rewrite completed_clients; apply lookup_insert).
  assert (Hgu : g_uuid gr = g). { destruct (co_dag _ Hcore0 c cl Ec) as [(_&_&Hk) _]. by apply Hk. }
  destruct (propagate_walk env (sc_top env) (mu s2) [] [] c cl2 g gr false results outs s2 Henv) as (s3&E3&H3).
  { by apply sc_top_spec. } { rewrite app_nil_r. done. } { done. } { done. } { done. }
  { intros f Hf. simpl. rewrite lookup_union_is_Some. left. by apply Houts. }
  { unfold s2. rewrite completed_log, Hgu. apply elem_of_app. right. left. }
  rewrite app_nil_r in H3.
  assert (Eq : exec_completed env (sc_top env) c gr results outs false
     (upd_client c (set_running (cl_running cl ∖ {[g]}) cl) (set_workers (delete w (s_workers s)) s1)) = ROk s3).
  { rewrite <- E3. unfold exec_completed. simpl. rewrite lookup_insert. fold (all_success results). fold (any_internal results).
    unfold propagate. replace (if negb (any_internal results) then _ else _) with (ROk s2); [done|].
    unfold s2, completed_state. destruct (any_internal results); simpl; [done|].
    unfold cache_execution. simpl. rewrite lookup_insert. simpl.
    rewrite !bool_decide_eq_true_2; [done| |].
    - apply Forall_forall. intros f Hf. apply Houts. done.
    - apply Forall_forall. intros f Hf. apply outs_union_handles. by apply Hh. }
  match goal with |- context [exec_completed ?a ?b ?c' ?d' ?e' ?f' ?g' ?x] =>
    replace (exec_completed a b c' d' e' f' g' x) with (ROk s3) by (symmetry; exact Eq) end. simpl.
  assert (Hcore3 : core (Cfg [] [] s3)) by (eapply isteps_core; [exact Hcore2|exact H3]).
  destruct (assign_walk env [] [] s3 Henv Hcore3) as (s4&E4&H4&Hn4). rewrite E4. simpl.
  exists s4. split; [done|]. by eapply rtc_transitive.
Qed.
Lemma istep_not_worker x x' : istep x x' -> exists l, s_log (x_s x') = s_log (x_s x) ++ l /\
  forall c g r o, ECompleted c g false r o ∉ l.
Proof.
  intros Hst. destruct Hst; simpl; try (exists []; rewrite app_nil_r; split; [done|]; intros c9 g9 r9 o9 Hev; by apply not_elem_of_nil in Hev);
    (eexists; split; [reflexivity|]); intros c9 g9 r9 o9 Hev.
  - by apply elem_of_list_singleton in Hev.
  - apply elem_of_cons in Hev as [?|Hev]; [done|]. by apply notify_is_send in Hev.
  - apply elem_of_cons in Hev as [?|Hev]; [done|]. by apply notify_is_send in Hev.
  - apply elem_of_cons in Hev as [?|Hev]; [done|]. by apply notify_done_is_send in Hev.
Qed.
Lemma isteps_not_worker x x' : rtc istep x x' -> exists l, s_log (x_s x') = s_log (x_s x) ++ l /\
  forall c g r o, ECompleted c g false r o ∉ l.
Proof.
  induction 1 as [x|x y z H1 _ (l&E&Hl)].
  - exists []. rewrite app_nil_r. split; [done|]. intros c9 g9 r9 o9 Hev; by apply not_elem_of_nil in Hev.
  - destruct (istep_not_worker _ _ H1) as (l0&E0&Hl0). exists (l0 ++ l). rewrite E, E0, app_assoc. split; [done|].
    intros c9 g9 r9 o9 Hev. apply elem_of_app in Hev as [Hev|Hev]; [by eapply Hl0|by eapply Hl].
Qed.
(** Every handled message extends the trace, starting with the message. *)
Lemma handle_log env m s s' : env_ok env -> reachable env s -> msg_ok s m -> handle env m s = ROk s' ->
  exists l, s_log s' = s_log s ++ l.
Proof.
  intros Henv Hr Hm Hh. destruct (reachable_inv1 env s Henv Hr) as (Hb&Hc&_).
  destruct (handle_good env m s Henv Hb Hc Hm) as [(s2&E2&Hst&_)|[E _]]; [|congruence].
  rewrite E2 in Hh. injection Hh as <-. clear -Hst.
  remember (Cfg [] [] s) as x eqn:Ex. remember (Cfg [] [] s2) as y eqn:Ey. replace s2 with (x_s y) by (by rewrite Ey). replace s with (x_s x) by (by rewrite Ex).
  clear Ex Ey. induction Hst as [|x y z H1 _ [l IH]]; [exists []; by rewrite app_nil_r|].
  assert (exists l0, s_log (x_s y) = s_log (x_s x) ++ l0) as [l0 E0] by (destruct H1; [by apply istep_log|by apply xstep_log]).
  exists (l0 ++ l). by rewrite IH, E0, app_assoc.
Qed.

(** ** The ready and running sets only contain groups of the DAG *)
Definition members (x : cfg) : Prop := forall c cl g, s_clients (x_s x) !! c = Some cl ->
  g ∈ cl_ready cl \/ g ∈ cl_running cl -> exists gr, (g, gr) ∈ d_groups (cl_dag cl).
Lemma members_upd x x' c cl cl' : members x -> s_clients (x_s x) !! c = Some cl -> s_clients (x_s x') = <[c := cl']> (s_clients (x_s x)) ->
  cl_dag cl' = cl_dag cl -> (forall g, g ∈ cl_ready cl' \/ g ∈ cl_running cl' -> (g ∈ cl_ready cl \/ g ∈ cl_running cl) \/
    exists gr, (g, gr) ∈ d_groups (cl_dag cl)) -> members x'.
Proof.
  intros Hm Hcl Hs Hd Hg c0 cl0 g Hcl0 Hin. rewrite Hs in Hcl0. destruct (upd_cases _ _ _ _ _ _ Hcl Hcl0) as [[-> ->]|[Hne Hcl0']]; [|eauto].
  rewrite Hd. destruct (Hg g Hin) as [?|?]; [eauto|done].
Qed.
Lemma step_members x x' : members x -> step x x' -> members x'.
Proof.
  intros Hm [Hst|Hst].
  - destruct Hst as [L P s|L P s q Hq|L P P' s Hpp|L P c f s Hd|L P s c cl f k ok Hcl Hf Hk Hok
    |L P s c cl g gr M f Hcl HM Hgr Hf Hbad|L P s c cl g gr M f Hcl HM Hgr HMf Hh Hok|L P s c cl g gr M f Hcl HM Hgr HMf Hh Hok
    |L P s w en q cl gr keys Hw Hpop Hcl Hgr Hh Hkeys|L P s en q cl gr Hq Hcl Hgr Hca|L P s c cl g gr results outs Hcl Hgr Hlen Houts Hrc
    |L L' P s Hperm]; try exact Hm.
    + eapply (members_upd _ _ c cl); [exact Hm|exact Hcl|reflexivity|done|]. simpl. auto.
    + eapply (members_upd _ _ c cl); [exact Hm|exact Hcl|reflexivity|done|]. simpl. intros g0 Hg0.
      destruct (decide (g0 = g)) as [->|]; [right; eauto|]. left. set_solver.
    + eapply (members_upd _ _ c cl); [exact Hm|exact Hcl|reflexivity|done|]. simpl. auto.
    + eapply (members_upd _ _ (en_client en) cl); [exact Hm|exact Hcl|reflexivity|done|]. simpl. intros g0 Hg0.
      destruct (decide (g0 = en_group en)) as [->|]; [right; eauto|]. left. set_solver.
    + eapply (members_upd _ _ (en_client en) cl); [exact Hm|exact Hcl|reflexivity|done|]. simpl. intros g0 Hg0. left. set_solver.
    + eapply (members_upd _ _ c cl); [exact Hm|exact Hcl|reflexivity|done|]. simpl. auto.
  - destruct Hst as [s m Hm' Hm2|s c d cb cl q Hd Hf Hs'|s c cl f k Hc|s w c cl g gr results outs Hr Hw Hc Hg Hlen Ho
    |s w c cl g gr Hr Hw Hc Hg|s w Hw|s w Hw|s c ws Hr Hpm|s c r w l Hr|s c cl Hc Hdone]; try exact Hm.
    + destruct (submit_submitted _ _ _ _ _ _ Hd Hs') as [Hdd Hcb Hru Hha Hio Hre Hmi _].
      intros c0 cl0 g Hcl0 Hin. simpl in *. destruct (decide (c = c0)) as [<-|Hne].
      * rewrite lookup_insert in Hcl0. injection Hcl0 as <-. rewrite Hru in Hin. destruct Hin as [Hin|Hin]; [|set_solver].
        apply Hre in Hin as (gr&?&_). rewrite Hdd. eauto.
      * rewrite lookup_insert_ne in Hcl0 by done. by eapply Hm.
    + eapply (members_upd _ _ c cl); [exact Hm|exact Hc|reflexivity|done|]. simpl. auto.
    + eapply (members_upd _ _ c cl); [exact Hm|exact Hc|apply completed_clients|done|]. simpl. intros g0 Hg0. left. set_solver.
    + eapply (members_upd _ _ c cl); [exact Hm|exact Hc|reflexivity|done|]. simpl. intros g0 Hg0.
      destruct (decide (g0 = g)) as [->|]; [right; eauto|]. left. set_solver.
    + intros c0 cl0 g Hcl0 Hin. simpl in *. apply lookup_delete_Some in Hcl0 as [_ ?]. by eapply Hm.
Qed.
Lemma reachable_members env s : env_ok env -> reachable env s -> members (Cfg [] [] s).
Proof.
  intros Henv Hr. eapply (reachable_inv env members); [done|done| | |].
  - intros c cl g H. simpl in H. by rewrite lookup_empty in H.
  - intros x x' _ _ Hm Hst. eapply step_members; [exact Hm|by left].
  - intros x x' _ _ Hm Hst. eapply step_members; [exact Hm|by right].
Qed.

(** ** A completion by a worker is announced by [Started] *)
Definition started_before (log : list event) : Prop := forall l1 c g r o l2, log = l1 ++ ECompleted c g false r o :: l2 ->
  forall d cb gr e, ERecv (EvaluateDAG c d cb) ∈ l1 -> (g, gr) ∈ d_groups d -> e ∈ g_execs gr -> e_uuid e ∈ w_executions cb ->
  exists w, ESend c (MStarted (e_uuid e) w) ∈ l1.
Lemma sb_app log l : started_before log -> (forall l1 c g r o l2, l = l1 ++ ECompleted c g false r o :: l2 ->
  forall d cb gr e, ERecv (EvaluateDAG c d cb) ∈ log ++ l1 -> (g, gr) ∈ d_groups d -> e ∈ g_execs gr -> e_uuid e ∈ w_executions cb ->
  exists w, ESend c (MStarted (e_uuid e) w) ∈ log ++ l1) -> started_before (log ++ l).
Proof.
  intros H1 H2 l1 c g r o l2 E. apply app_eq_inv in E as [(k&E1&E2)|(k&E1&E2)].
  - destruct k as [|x k]; simpl in E2.
    + rewrite app_nil_r in E1. subst log. intros d cb gr e. pose proof (H2 [] c g r o l2 (eq_sym E2) d cb gr e) as H. by rewrite app_nil_r in H.
    + injection E2 as <- ->. by eapply (H1 l1 c g r o k).
  - subst l1. by eapply H2.
Qed.
Lemma sb_plain log l : started_before log -> (forall c g r o, ECompleted c g false r o ∉ l) -> started_before (log ++ l).
Proof. intros H1 H2. apply sb_app; [done|]. intros l1 c g r o l2 E. exfalso. apply (H2 c g r o). rewrite E, elem_of_app. right. left. Qed.
Lemma step_started x x' : core x -> base x -> inv2 x -> tallies x -> started_before (s_log (x_s x)) -> step x x' -> started_before (s_log (x_s x')).
Proof.
  intros Hcore Hb Hi Ht Hsb [Hst|Hst].
  - destruct (istep_not_worker _ _ Hst) as (l&E&Hl). rewrite E. by apply sb_plain.
  - destruct Hst as [s m Hm' Hm2|s c d cb cl q Hd Hf Hs'|s c cl f k Hc|s w c cl g gr results outs Hr Hw Hc Hg Hlen Ho
    |s w c cl g gr Hr Hw Hc Hg|s w Hw|s w Hw|s c ws Hr Hpm|s c r w l Hr|s c cl Hc Hdone]; simpl in *; try exact Hsb;
      try (apply sb_plain; [done|]; intros ? ? ? ? Hin; by apply elem_of_list_singleton in Hin).
    + rewrite completed_log. apply sb_app; [done|]. intros l1 c0 g0 r0 o0 l2 E.
      assert (l1 = []) as ->.
      { destruct l1 as [|x l1]; [done|]. exfalso. injection E as _ E.
        assert (Hin : ECompleted c0 g0 false r0 o0 ∈ notify_done c (cl_cb cl) (g_execs gr) results ++
            (if any_internal results then [] else [ECacheInsert c gr (outs ∪ cl_handles cl) results])) by (rewrite E; inlog).
        apply elem_of_app in Hin as [Hin|Hin]; [by apply notify_done_is_send in Hin|].
        destruct (any_internal results); [by apply not_elem_of_nil in Hin|]. by apply elem_of_list_singleton in Hin. }
      injection E as <- <- <- <- _. rewrite app_nil_r. intros d cb gr' e Hev Hg' He Hwt.
      assert (Hgu : g_uuid gr = g). { destruct (co_dag _ Hcore _ cl Hc) as [(_&_&Hk) _]. by apply Hk. }
      rewrite Hgu in Hg'. pose proof (Ht c d cb g gr' e Hev Hg' He) as [_ _ Hst]. simpl in Hst.
      rewrite bool_decide_eq_true_2 in Hst by done.
      destruct (po_job _ (i2_pos _ Hi) _ _ _ Hw) as (gr2&keys&d'&cb'&Hjob&Hgu'&_&_). simpl in Hjob.
      assert (Hpos : 0 < count (is_job c g) (s_log s)).
      { apply count_pos. eexists. split; [exact Hjob|]. simpl. by apply bool_decide_eq_true. }
      rewrite <- Hst in Hpos. apply count_pos in Hpos as (ev&Hin&Hx). destruct ev as [| c' m' | | | | | |]; try done. destruct m'; try done.
      simpl in Hx. apply bool_decide_eq_true in Hx as [-> ->]. eauto.
    + apply sb_plain; [done|]. intros c0 g0 r0 o0 Hin.
      apply elem_of_app in Hin as [Hin|Hin]; [by apply farewell_cases in Hin as [? _]|by apply stops_cases in Hin as (?&?&?&_)].
Qed.
Lemma reachable_started env s : env_ok env -> reachable env s -> started_before (s_log s).
Proof.
  intros Henv Hr. assert (H : inv2 (Cfg [] [] s) /\ tallies (Cfg [] [] s) /\ started_before (s_log s)); [|by destruct H as (_&_&?)].
  eapply (reachable_inv env (fun x => inv2 x /\ tallies x /\ started_before (s_log (x_s x)))); [done|done| | |].
  - split; [apply inv2_init|]. split; [intros c d cb g gr e Hx; by apply not_elem_of_nil in Hx|].
    intros l1 c g r o l2 E. simpl in E. by destruct l1.
  - intros x x' Hb Hc (Hi&Ht&Hs) Hst. assert (Hst' : step x x') by (by left). split; [exact (inv2_step _ _ Hb Hc Hi Hst')|].
    split; [exact (step_tallies _ _ Hc Hb (i2_subs _ Hi) Ht Hst')|exact (step_started _ _ Hc Hb Hi Ht Hs Hst')].
  - intros x x' Hb Hc (Hi&Ht&Hs) Hst. assert (Hst' : step x x') by (by right). split; [exact (inv2_step _ _ Hb Hc Hi Hst')|].
    split; [exact (step_tallies _ _ Hc Hb (i2_subs _ Hi) Ht Hst')|exact (step_started _ _ Hc Hb Hi Ht Hs Hst')].
Qed.

