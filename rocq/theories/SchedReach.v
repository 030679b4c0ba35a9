(** Every handler returns normally on every reachable state, and is a sequence of steps. *)
From Verif Require Import SchedSpec SchedSteps SchedWalk SchedExt CheckDagProofs CheckDagProofs2.
Local Arguments mu : simpl never.

Lemma last_recv_snoc l m : last_recv (l ++ [ERecv m]) = Some m.
Proof. unfold last_recv. by rewrite fold_left_app. Qed.

(** What a result of [handle] must satisfy. *)
Definition good (env : env) (m : sched_msg) (s : state) : Prop :=
  (exists s', handle env m s = ROk s' /\ rtc step (Cfg [] [] s) (Cfg [] [] s') /\
     ((forall w, m <> WorkerDisconnected w) -> no_idle s -> no_idle s')) \/
  (handle env m s = RBail /\ exists w results outs c g cl gr, m = WorkerResult w results outs /\ working s w c g /\
     s_clients s !! c = Some cl /\ (g, gr) ∈ d_groups (cl_dag cl) /\ length results <> length (g_execs gr)).

Lemma check_completion_steps c s : rtc step (Cfg [] [] s) (Cfg [] [] (check_completion c s)).
Proof.
  unfold check_completion. destruct (s_clients s !! c) as [cl|] eqn:E; [|done].
  destruct (is_done cl) eqn:Ed; [|done]. apply rtc_once. right. by eapply xs_evaldone.
Qed.
Lemma check_completion_no_idle c s : no_idle s -> no_idle (check_completion c s).
Proof. unfold check_completion. destruct (s_clients s !! c) as [cl|]; [|done]. by destruct (is_done cl). Qed.

Lemma no_idle_sub s s' : no_idle s -> (s_queue s = [] -> s_queue s' = []) ->
  (forall w, s_workers s' !! w = Some None -> s_workers s !! w = Some None) -> no_idle s'.
Proof. intros [H|H] H1 H2; [left; auto|right]. intros w Hw. by eapply H, H2. Qed.

Lemma status_fold s ws : core (Cfg [] [] s) -> (forall wj, wj ∈ ws -> s_workers s !! wj.1 = Some wj.2) -> forall acc,
  exists l, rfold (fun acc (wj : worker_uuid * option (client_uuid * group_uuid)) =>
    match wj.2 with
    | None => ROk (acc ++ [(wj.1, None)])
    | Some (owner, g) =>
      match s_clients s !! owner with
      | None => ROk (acc ++ [(wj.1, None)])
      | Some cl => match alookup g (d_groups (cl_dag cl)) with
                   | None => RPanic
                   | Some _ => ROk (acc ++ [(wj.1, Some (owner, g))])
                   end
      end
    end) ws acc = ROk l.
Proof.
  intros Hcore. induction ws as [|[w job] ws IH]; intros Hws acc; simpl; [eauto|].
  assert (Hw : s_workers s !! w = Some job) by (apply (Hws (w, job)); left).
  assert (Hws' : forall wj, wj ∈ ws -> s_workers s !! wj.1 = Some wj.2) by (intros; apply Hws; by right).
  destruct job as [[c g]|]; simpl; [|by apply IH].
  destruct (s_clients s !! c) as [cl|] eqn:Ec; simpl; [|by apply IH].
  destruct (co_jobs _ Hcore w c g Hw cl Ec) as (gr&Hgr&_).
  rewrite (proj2 (core_lookup _ _ _ _ _ Hcore Ec) Hgr). simpl. by apply IH.
Qed.

Lemma group_deps_dec_ok (cl : client) gr : has_handles cl gr ->
  bool_decide (Forall (fun f => is_Some (cl_handles cl !! f)) (group_deps gr)) = true.
Proof. intros H. apply bool_decide_eq_true_2, Forall_forall. exact H. Qed.

Lemma handle_good env m s : env_ok env -> base (Cfg [] [] s) -> core (Cfg [] [] s) -> msg_ok s m -> good env m s.
Proof.
  intros Henv Hb0 Hcore0 Hmsg. unfold good, handle.
  set (s1 := emit [ERecv m] s).
  assert (Hlr : last_recv (s_log s1) = Some m) by apply last_recv_snoc.
  destruct m as [c d cb|c|c f k|w results outs|w|w|c].
  - (* EvaluateDAG *)
    left. destruct Hmsg as [Hd Hfresh]. unfold handle_evaluate_dag.
    destruct (fold_left (submit_one c (cfg_priority (d_config d))) (d_groups d) (new_client d cb, s_queue s1)) as [cl q] eqn:E.
    assert (Hx : rtc step (Cfg [] [] s) (Cfg [] [] (upd_client c cl (set_queue q s1)))).
    { apply rtc_once. right. by apply xs_submit. }
    assert (H2 := rtc_transitive _ _ _ Hx (check_completion_steps c (upd_client c cl (set_queue q s1)))).
    destruct (steps_base_core _ _ Hb0 Hcore0 H2) as [Hb2 Hcore2].
    destruct (sc_top_spec env _ Henv [] [] _ Hcore2 (Nat.le_refl _)) as (s3&E3&H3). rewrite E3. simpl.
    destruct (assign_walk env [] [] s3 Henv) as (s4&E4&H4&Hni); [by eapply isteps_core|].
    exists s4. split; [done|]. split; [|auto].
    eapply rtc_transitive; [exact H2|]. apply isteps_steps. by eapply rtc_transitive.
  - (* ClientDisconnected *)
    left. unfold handle_client_disconnected.
    exists (gone_state c (e_ord env (s_tick s) _ (map_to_list (s_workers s))) s1). split; [|split].
    + f_equal. unfold gone_state, farewell, stops. simpl.
      destruct (s_clients s !! c) as [cl|] eqn:Ec; [destruct (is_done cl)|]; simpl; try done.
      unfold emit, set_queue, set_clients, tick. simpl. by rewrite <- !app_assoc.
    + eapply (rtc_l _ _ (Cfg [] [] s1)); [right; by apply xs_recv|]. apply rtc_once. right. apply xs_gone; [done|]. apply (eo_ord _ Henv).
    + intros _ Hni. apply (no_idle_sub _ _ Hni); simpl; [by intros ->|done].
  - (* FileReady *)
    left. unfold handle_file_ready. simpl. destruct (s_clients s !! c) as [cl|] eqn:Ec; simpl.
    + set (s2 := upd_client c (set_handles (<[f:=k]> (cl_handles cl)) cl) s1).
      assert (H2 : rtc step (Cfg [] [] s) (Cfg [] [(c, f)] s2)).
      { apply rtc_once. right. by apply xs_ready. }
      destruct (steps_base_core _ _ Hb0 Hcore0 H2) as [Hb2 Hcore2].
      assert (Hcl2 : s_clients s2 !! c = Some (set_handles (<[f:=k]> (cl_handles cl)) cl)) by apply lookup_insert.
      destruct (file_success_walk env (sc_top env) (mu s2) [] [] c f s2 Henv) as (s3&E3&H3).
      * apply sc_top_spec; done.
      * by eapply (core_sub _ _ Hcore2).
      * done.
      * intros cl0 Hcl0. rewrite Hcl2 in Hcl0. injection Hcl0 as <-. split.
        -- left. exists k. simpl. apply elem_of_app. right. left.
        -- simpl. rewrite lookup_insert. eauto.
      * rewrite E3. simpl. eexists. split; [reflexivity|]. split.
        -- eapply rtc_transitive; [exact H2|]. eapply rtc_transitive; [apply isteps_steps, H3|]. apply check_completion_steps.
        -- intros _ Hni. apply check_completion_no_idle. revert E3. unfold file_success.
           rewrite send_file_clients, Hcl2. simpl. destruct (cl_input_of cl !! f) as [gs|] eqn:Eg.
           ++ destruct (rfold (enable_one c f) _ _) as [sa| | |] eqn:Ea; simpl; try done.
              destruct (sc_top env sa) as [sb| | |] eqn:Eb; simpl; try done. intros Ej.
              (* replay the walk to get [core] of sb *)
              assert (Hsf : rtc istep (Cfg [] [(c, f)] s2) (Cfg [] [(c, f)] (send_file c f true s2))).
              { apply send_file_steps. intros cl0 Hcl0. left. exists k. simpl. apply elem_of_app. right. left. }
              assert (Hcore3 : core (Cfg [] [(c, f)] (tick (send_file c f true s2)))).
              { eapply isteps_core; [exact Hcore2|]. eapply rtc_r; [exact Hsf|constructor]. }
              assert (Hcl3 : s_clients (tick (send_file c f true s2)) !! c = Some (set_handles (<[f:=k]> (cl_handles cl)) cl))
                by (rewrite tick_clients, send_file_clients; done).
              edestruct (enable_fold [] [(c, f)] c f (e_ord env (s_tick (send_file c f true s2)) _ (elements gs))) as (s'&cl'&Hr&Hst'&_); [exact Hcore3|exact Hcl3| | | |].
              ** eapply (ok_file_step _ _ _ _ _ Hsf). left. exists k. simpl. apply elem_of_app. right. left.
              ** simpl. rewrite lookup_insert. eauto.
              ** intros g Hg. rewrite (eo_ord _ Henv), elem_of_elements in Hg.
                 apply (co_io _ Hcore3 c _ Hcl3). simpl. eauto.
              ** rewrite Hr in Ea. injection Ea as <-.
                 assert (Hcore4 : core (Cfg [] [(c, f)] s')) by (by eapply isteps_core).
                 destruct (sc_top_spec env _ Henv [] [(c,f)] s' Hcore4 (Nat.le_refl _)) as (s4&E4&H4).
                 rewrite E4 in Eb. injection Eb as <-.
                 destruct (assign_walk env [] [(c,f)] s4 Henv) as (s5&E5&_&Hn5); [by eapply isteps_core|].
                 rewrite E5 in Ej. by injection Ej as <-.
           ++ intros [= <-]. apply (no_idle_sub _ _ Hni).
              ** rewrite send_file_queue. done.
              ** intros w. unfold send_file. rewrite Hcl2. case_bool_decide; [|done]. simpl. by rewrite lookup_insert.
    + exists s1. split; [done|]. split; [apply rtc_once; right; apply xs_recv; [done|congruence]|]. intros _ Hni. by apply (no_idle_sub _ _ Hni).
  - (* WorkerResult *)
    unfold handle_worker_result. simpl.
    assert (Hrecv : rtc step (Cfg [] [] s) (Cfg [] [] s1)) by (apply rtc_once; right; by apply xs_recv).
    destruct (s_workers s !! w) as [[[c g]|]|] eqn:Ew.
    + destruct (s_clients s !! c) as [cl|] eqn:Ec.
      * assert (Hw : working s w c g) by done.
        destruct (co_jobs _ Hcore0 w c g Hw cl Ec) as (gr&Hgr&Hh).
        rewrite (proj2 (core_lookup _ _ _ _ _ Hcore0 Ec) Hgr).
        case_bool_decide as Hlen; [left|right; split; [done|]; exists w, results, outs, c, g, cl, gr; auto 6].
        assert (Houts : forall f, f ∈ group_outputs gr -> is_Some (outs !! f)) by (eapply Hmsg; eauto).
        set (s2 := completed_state w c cl g gr results outs s1).
        assert (H2 : rtc step (Cfg [] [] s) (Cfg [] (map (pair c) (group_outputs gr)) s2)).
        { eapply rtc_r; [exact Hrecv|]. right. by apply xs_complete. }
        destruct (steps_base_core _ _ Hb0 Hcore0 H2) as [Hb2 Hcore2].
        set (cl2 := set_handles (outs ∪ cl_handles cl) (set_running (cl_running cl ∖ {[g]}) cl)).
        assert (Hcl2 : s_clients s2 !! c = Some cl2) by (unfold s2; rewrite completed_clients; apply lookup_insert).
        assert (Hgu : g_uuid gr = g). { destruct (co_dag _ Hcore0 c cl Ec) as [(_&_&Hk) _]. by apply Hk. }
        destruct (propagate_walk env (sc_top env) (mu s2) [] [] c cl2 g gr false results outs s2 Henv) as (s3&E3&H3).
        { by apply sc_top_spec. } { rewrite app_nil_r. done. } { done. } { done. } { done. }
        { intros f Hf. simpl. rewrite lookup_union_is_Some. left. by apply Houts. }
        { unfold s2. rewrite completed_log, Hgu. apply elem_of_app. right. left. }
        rewrite app_nil_r in H3.
        assert (Eq : exec_completed env (sc_top env) c gr results outs false
           (upd_client c (set_running (cl_running cl ∖ {[g]}) cl) (set_workers (delete w (s_workers s)) s1)) = ROk s3).
        { rewrite <- E3. unfold exec_completed. simpl. rewrite lookup_insert. fold (all_success results). fold (any_internal results).
          unfold propagate. replace (if negb (any_internal results) then _ else _) with (ROk s2); [done|].
          unfold s2, completed_state. destruct (any_internal results); simpl; [done|].
          unfold cache_execution. simpl. rewrite lookup_insert. simpl.
          rewrite !bool_decide_eq_true_2; [done| |].
          - apply Forall_forall. intros f Hf. apply Houts. done.
          - apply Forall_forall. intros f Hf. apply outs_union_handles. by apply Hh. }
        match goal with |- context [exec_completed ?a ?b ?c' ?d' ?e' ?f' ?g' ?x] =>
          replace (exec_completed a b c' d' e' f' g' x) with (ROk s3) by (symmetry; exact Eq) end. simpl.
        assert (Hcore3 : core (Cfg [] [] s3)) by (eapply isteps_core; [exact Hcore2|exact H3]).
        destruct (assign_walk env [] [] s3 Henv Hcore3) as (s4&E4&H4&Hn4). rewrite E4. simpl.
        eexists. split; [reflexivity|]. split; [|intros _ _; by apply check_completion_no_idle].
        eapply rtc_transitive; [exact H2|]. eapply rtc_transitive; [apply isteps_steps, H3|].
        eapply rtc_transitive; [apply isteps_steps, H4|]. apply check_completion_steps.
      * left. set (s2 := set_workers (delete w (s_workers s)) s1).
        assert (H2 : rtc step (Cfg [] [] s) (Cfg [] [] s2)).
        { eapply rtc_r; [exact Hrecv|]. right. apply (xs_wdel s1). intros c' g' Hx. unfold working in Hx. simpl in *. congruence. }
        destruct (steps_base_core _ _ Hb0 Hcore0 H2) as [Hb2 Hcore2].
        destruct (assign_walk env [] [] s2 Henv Hcore2) as (s4&E4&H4&Hn4). 
        match goal with |- context [assign_jobs ?a ?x] =>
          replace (assign_jobs a x) with (ROk s4) by (symmetry; exact E4) end. simpl.
        eexists. split; [reflexivity|]. split; [|intros _ _; by apply check_completion_no_idle].
        eapply rtc_transitive; [exact H2|]. eapply rtc_transitive; [apply isteps_steps, H4|]. apply check_completion_steps.
    + left. eexists. split; [reflexivity|]. split.
      * eapply rtc_r; [exact Hrecv|]. right. apply (xs_wdel s1). intros c' g' Hx. unfold working in Hx. simpl in *. congruence.
      * intros _ Hni. apply (no_idle_sub _ _ Hni); simpl; [done|]. intros w' Hw'. by apply lookup_delete_Some in Hw' as [_ ?].
    + left. exists s1. split; [done|]. split; [done|]. intros _ Hni. by apply (no_idle_sub _ _ Hni).
  - (* WorkerConnected *)
    left. unfold handle_worker_connected. simpl.
    set (s2 := set_workers (<[w:=None]> (s_workers s)) s1).
    assert (H2 : rtc step (Cfg [] [] s) (Cfg [] [] s2)).
    { eapply (rtc_l _ _ (Cfg [] [] s1)); [right; by apply xs_recv|]. apply rtc_once. right. apply (xs_wadd s1). intros c g Hw. by eapply Hmsg. }
    destruct (steps_base_core _ _ Hb0 Hcore0 H2) as [Hb2 Hcore2].
    destruct (assign_walk env [] [] s2 Henv Hcore2) as (s4&E4&H4&Hn4). exists s4. split; [done|]. split; [|auto].
    eapply rtc_transitive; [exact H2|]. by apply isteps_steps.
  - (* WorkerDisconnected *)
    left. unfold handle_worker_disconnected. simpl.
    assert (Hrecv : rtc step (Cfg [] [] s) (Cfg [] [] s1)) by (apply rtc_once; right; by apply xs_recv).
    destruct (s_workers s !! w) as [[[c g]|]|] eqn:Ew.
    + destruct (s_clients s !! c) as [cl|] eqn:Ec.
      * assert (Hw : working s w c g) by done.
        destruct (co_jobs _ Hcore0 w c g Hw cl Ec) as (gr&Hgr&Hh).
        rewrite (proj2 (core_lookup _ _ _ _ _ Hcore0 Ec) Hgr). eexists. split; [reflexivity|].
        split; [|intros Hx; by destruct (Hx w)].
        eapply rtc_r; [exact Hrecv|]. right. by apply (xs_lost s1 w c cl g gr).
      * eexists. split; [reflexivity|]. split; [|intros Hx; by destruct (Hx w)].
        eapply rtc_r; [exact Hrecv|]. right. apply (xs_wdel s1). intros c' g' Hx. unfold working in Hx. simpl in *. congruence.
    + eexists. split; [reflexivity|]. split; [|intros Hx; by destruct (Hx w)].
      eapply rtc_r; [exact Hrecv|]. right. apply (xs_wdel s1). intros c' g' Hx. unfold working in Hx. simpl in *. congruence.
    + exists s1. split; [done|]. split; [done|]. intros Hx; by destruct (Hx w).
  - (* StatusRequest *)
    left. unfold handle_status_request. simpl.
    assert (Hcore1 : core (Cfg [] [] s1)) by (by eapply (core_sub _ _ Hcore0)).
    destruct (status_fold s1 (e_ord env (s_tick s) _ (map_to_list (s_workers s))) Hcore1) with (acc := @nil (worker_uuid * option (client_uuid * group_uuid))) as [l El].
    { intros [w j] Hin. rewrite (eo_ord _ Henv) in Hin. by apply elem_of_map_to_list in Hin. }
    simpl in El. rewrite El. simpl. eexists. split; [reflexivity|]. split.
    + eapply (rtc_l _ _ (Cfg [] [] s1)); [right; by apply xs_recv|]. apply rtc_once. right. by apply (xs_status s1).
    + intros _ Hni. by apply (no_idle_sub _ _ Hni).
Qed.

Lemma init_base : base (Cfg [] [] init_state).
Proof. constructor; simpl; [intros c cl; by rewrite lookup_empty|]. intros w c g. unfold working. simpl. by rewrite lookup_empty. Qed.
Lemma init_core : core (Cfg [] [] init_state).
Proof.
  constructor; simpl; try (intros c cl; by rewrite lookup_empty).
  - intros en Hx. by apply not_elem_of_nil in Hx.
  - intros w c g. unfold working. simpl. by rewrite lookup_empty.
  - intros c g Hx. by apply not_elem_of_nil in Hx.
Qed.

Lemma reachable_steps env s : env_ok env -> reachable env s ->
  rtc step (Cfg [] [] init_state) (Cfg [] [] s) /\ base (Cfg [] [] s) /\ core (Cfg [] [] s).
Proof.
  intros Henv. induction 1 as [|s m s' Hr (IH&Hb&Hc) Hm Hh].
  - split; [done|]. split; [apply init_base|apply init_core].
  - destruct (handle_good env m s Henv Hb Hc Hm) as [(s2&E2&Hst&_)|[E _]]; [|congruence].
    rewrite E2 in Hh. injection Hh as <-.
    split; [by eapply rtc_transitive|]. by eapply steps_base_core.
Qed.
(** To prove an invariant of the reachable states it is enough to prove it for the steps. *)
Lemma reachable_inv env (I : cfg -> Prop) s : env_ok env -> reachable env s ->
  I (Cfg [] [] init_state) ->
  (forall x x', base x -> core x -> I x -> istep x x' -> I x') ->
  (forall x x', base x -> core x -> I x -> xstep x x' -> I x') ->
  I (Cfg [] [] s).
Proof.
  intros Henv Hr H0 Hi Hx. destruct (reachable_steps env s Henv Hr) as (Hst&_&_).
  assert (Hgen : forall x x', rtc step x x' -> base x -> core x -> I x -> I x').
  { induction 1 as [|x y z H _ IH]; intros Hb Hc HI; [done|].
    apply IH; [by eapply step_base|by eapply step_core|]. destruct H; eauto. }
  eapply Hgen; [exact Hst|apply init_base|apply init_core|done].
Qed.
