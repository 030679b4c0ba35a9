(** Proofs for C101. *)
From Verif Require Import CheckDagProofs CheckDagProofs2 StatusSpec SchedSteps SchedWalk SchedExt SchedReach.
Local Arguments mu : simpl never.

Definition is_recv (ev : event) : bool := match ev with ERecv _ => true | _ => false end.
(** [s'] is [s] after some events of the server itself, the workers being as these events say. *)
Definition wg (s s' : state) : Prop := exists l, s_log s' = s_log s ++ l /\ Forall (fun ev => is_recv ev = false) l /\
  s_workers s' = fold_left worker_event l (s_workers s) /\ dom (s_clients s') = dom (s_clients s).
Lemma wg_refl s s' : s_log s' = s_log s -> s_workers s' = s_workers s -> dom (s_clients s') = dom (s_clients s) -> wg s s'.
Proof. intros E1 E2 E3. exists []. rewrite app_nil_r. auto. Qed.
Lemma wg_trans s1 s2 s3 : wg s1 s2 -> wg s2 s3 -> wg s1 s3.
Proof.
  intros (l1&E1&F1&W1&D1) (l2&E2&F2&W2&D2). exists (l1 ++ l2). rewrite E2, E1, app_assoc. split; [done|].
  split; [by apply Forall_app|]. rewrite fold_left_app, <- W1. split; [done|congruence].
Qed.
Definition is_quiet (ev : event) : bool := match ev with ERecv _ | EJob _ _ _ _ => false | _ => true end.
Lemma wg_quiet s s' l : s_log s' = s_log s ++ l -> Forall (fun ev => is_quiet ev = true) l -> s_workers s' = s_workers s ->
  dom (s_clients s') = dom (s_clients s) -> wg s s'.
Proof.
  intros E1 F E2 E3. exists l. split; [done|]. split; [|split; [|done]].
  - eapply Forall_impl; [exact F|]. by intros [].
  - rewrite E2. clear -F. induction F as [|ev l H F IH]; simpl; [done|]. by destruct ev.
Qed.
Lemma quiet_fold l : Forall (fun ev => is_quiet ev = true) l -> forall m, fold_left worker_event l m = m.
Proof. induction 1 as [|ev l H F IH]; intros m; simpl; [done|]. rewrite IH. by destruct ev. Qed.
Lemma notify_quiet c cb mk es : Forall (fun ev => is_quiet ev = true) (notify c cb mk es).
Proof. unfold notify. apply Forall_forall. intros ev Hin. apply elem_of_list_fmap in Hin as (e&->&_). done. Qed.
Lemma notify_done_quiet c cb es r : Forall (fun ev => is_quiet ev = true) (notify_done c cb es r).
Proof. unfold notify_done. apply Forall_forall. intros ev Hin. apply elem_of_list_fmap in Hin as (e&->&_). done. Qed.
Lemma dom_upd s c cl cl' : s_clients s !! c = Some cl -> dom (<[c := cl']> (s_clients s)) = dom (s_clients s).
Proof. intros E. rewrite dom_insert_L. apply elem_of_dom_2 in E. set_solver. Qed.

Lemma istep_wg x x' : core x -> istep x x' -> wg (x_s x) (x_s x').
Proof.
  intros Hcore Hst. destruct Hst; simpl; try (by apply wg_refl).
  - eapply wg_quiet; [reflexivity|repeat constructor|done|done].
  - unfold skip_state. eapply wg_quiet; [reflexivity| |done|].
    + constructor; [done|apply notify_quiet].
    + simpl; by eapply dom_upd.
  - apply wg_refl; [done|done|]. simpl; by eapply dom_upd.
  - apply wg_refl; [done|done|]. simpl; by eapply dom_upd.
  - assert (Hgu : g_uuid gr = en_group en). { destruct (co_dag _ Hcore _ cl H1) as [(_&_&Hk) _]. by apply Hk. }
    unfold assign_state. eexists. split; [reflexivity|]. split; [|split].
    + constructor; [done|]. eapply Forall_impl; [apply notify_quiet|]. by intros [].
    + simpl. rewrite Hgu. symmetry. apply quiet_fold, notify_quiet.
    + simpl. by eapply dom_upd.
  - apply wg_refl; [done|done|]. simpl; by eapply dom_upd.
  - unfold complete. eapply wg_quiet; [reflexivity| |done|].
    + constructor; [done|apply notify_done_quiet].
    + simpl; by eapply dom_upd.
Qed.
Lemma isteps_wg x x' : core x -> rtc istep x x' -> wg (x_s x) (x_s x').
Proof.
  intros Hcore H. induction H as [|x y z H _ IH]; [by apply wg_refl|].
  eapply wg_trans; [by apply istep_wg|]. apply IH. eapply isteps_core; [exact Hcore|by apply rtc_once].
Qed.
Lemma check_completion_wg c s : wg s (check_completion c s).
Proof.
  unfold check_completion. destruct (s_clients s !! c) as [cl|] eqn:E; [|by apply wg_refl].
  destruct (is_done cl); [|by apply wg_refl]. eapply wg_quiet; [reflexivity|repeat constructor|done|done].
Qed.

(** The effect of a message on the workers and the clients, then the events of the server. *)
Definition wh (m : sched_msg) (s s' : state) : Prop := exists l, s_log s' = s_log s ++ ERecv m :: l /\
  Forall (fun ev => is_recv ev = false) l /\
  s_workers s' = fold_left worker_event l (worker_event (s_workers s) (ERecv m)) /\
  dom (s_clients s') = client_event (dom (s_clients s)) (ERecv m).
Lemma wh_start m s s1 s' : s_log s1 = s_log s ++ [ERecv m] -> s_workers s1 = worker_event (s_workers s) (ERecv m) ->
  dom (s_clients s1) = client_event (dom (s_clients s)) (ERecv m) -> wg s1 s' -> wh m s s'.
Proof.
  intros E1 E2 E3 (l&E&F&W&D). exists l. rewrite E, E1, <- app_assoc. split; [done|]. split; [done|]. rewrite W, E2, D, E3. done.
Qed.

Lemma handle_wh env m s s' : env_ok env -> base (Cfg [] [] s) -> core (Cfg [] [] s) -> msg_ok s m ->
  handle env m s = ROk s' -> wh m s s'.
Proof.
  intros Henv Hb0 Hcore0 Hmsg. unfold handle.
  set (s1 := emit [ERecv m] s).
  assert (Hlr : last_recv (s_log s1) = Some m) by apply last_recv_snoc.
  destruct m as [c d cb|c|c f k|w results outs|w|w|c].
  - (* EvaluateDAG *)
    destruct Hmsg as [Hd Hfresh]. unfold handle_evaluate_dag.
    destruct (fold_left (submit_one c (cfg_priority (d_config d))) (d_groups d) (new_client d cb, s_queue s1)) as [cl q] eqn:E.
    set (s2 := upd_client c cl (set_queue q s1)).
    assert (Hx : rtc step (Cfg [] [] s) (Cfg [] [] s2)).
    { apply rtc_once. right. by apply xs_submit. }
    assert (H2 := rtc_transitive _ _ _ Hx (check_completion_steps c s2)).
    destruct (steps_base_core _ _ Hb0 Hcore0 H2) as [Hb2 Hcore2].
    destruct (sc_top_spec env _ Henv [] [] _ Hcore2 (Nat.le_refl _)) as (s3&E3&H3). rewrite E3. simpl.
    assert (Hcore3 : core (Cfg [] [] s3)) by (by eapply isteps_core).
    destruct (assign_walk env [] [] s3 Henv Hcore3) as (s4&E4&H4&Hni).
    rewrite E4. intros [= <-]. eapply (wh_start _ _ s2); [done|done| |].
    + simpl. by rewrite dom_insert_L.
    + eapply wg_trans; [apply check_completion_wg|]. eapply wg_trans; [exact (isteps_wg _ _ Hcore2 H3)|exact (isteps_wg _ _ Hcore3 H4)].
  - (* ClientDisconnected *)
    unfold handle_client_disconnected.
    assert (E : forall r, r = gone_state c (e_ord env (s_tick s) _ (map_to_list (s_workers s))) s1 -> wh (ClientDisconnected c) s r).
    { intros r ->. unfold gone_state. eexists. simpl. split; [rewrite <- app_assoc; reflexivity|]. split; [|split].
      - apply Forall_app. split.
        + unfold farewell. destruct (s_clients s1 !! c) as [cl|]; [|done]. destruct (is_done cl); repeat constructor.
        + unfold stops. apply Forall_forall. intros ev Hin. apply elem_of_list_bind in Hin as ([w j]&Hin&_). simpl in Hin.
          destruct j as [[o g]|]; [|by apply elem_of_nil in Hin]. case_bool_decide; [|by apply elem_of_nil in Hin].
          apply elem_of_list_singleton in Hin as ->. done.
      - assert (F : Forall (fun ev => is_quiet ev = true) (farewell c s1 ++ stops c (e_ord env (s_tick s) _ (map_to_list (s_workers s))))).
        { apply Forall_app. split.
          + unfold farewell. destruct (s_clients s1 !! c) as [cl|]; [|done]. destruct (is_done cl); repeat constructor.
          + unfold stops. apply Forall_forall. intros ev Hin. apply elem_of_list_bind in Hin as ([w j]&Hin&_). simpl in Hin.
            destruct j as [[o g]|]; [|by apply elem_of_nil in Hin]. case_bool_decide; [|by apply elem_of_nil in Hin].
            apply elem_of_list_singleton in Hin as ->. done. }
        symmetry. by apply quiet_fold.
      - by rewrite dom_delete_L. }
    intros [= <-]. apply E. unfold gone_state, farewell, stops. simpl.
      destruct (s_clients s !! c) as [cl|] eqn:Ec; [destruct (is_done cl)|]; simpl; try done.
      unfold emit, set_queue, set_clients, tick. simpl. by rewrite <- !app_assoc.
  - (* FileReady *)
    unfold handle_file_ready. simpl. destruct (s_clients s !! c) as [cl|] eqn:Ec; simpl.
    + set (s2 := upd_client c (set_handles (<[f:=k]> (cl_handles cl)) cl) s1).
      assert (H2 : rtc step (Cfg [] [] s) (Cfg [] [(c, f)] s2)).
      { apply rtc_once. right. by apply xs_ready. }
      destruct (steps_base_core _ _ Hb0 Hcore0 H2) as [Hb2 Hcore2].
      assert (Hcl2 : s_clients s2 !! c = Some (set_handles (<[f:=k]> (cl_handles cl)) cl)) by apply lookup_insert.
      destruct (file_success_walk env (sc_top env) (mu s2) [] [] c f s2 Henv) as (s3&E3&H3).
      * apply sc_top_spec; done.
      * by eapply (core_sub _ _ Hcore2).
      * done.
      * intros cl0 Hcl0. rewrite Hcl2 in Hcl0. injection Hcl0 as <-. split.
        -- left. exists k. simpl. apply elem_of_app. right. left.
        -- simpl. rewrite lookup_insert. eauto.
      * rewrite E3. simpl. intros [= <-]. eapply (wh_start _ _ s2); [done|done| |].
        -- simpl. simpl; by eapply dom_upd.
        -- eapply wg_trans; [exact (isteps_wg _ _ Hcore2 H3)|apply check_completion_wg].
    + intros [= <-]. eapply (wh_start _ _ s1); [done|done|done|by apply wg_refl].
  - (* WorkerResult *)
    unfold handle_worker_result. simpl.
    assert (Hrecv : rtc step (Cfg [] [] s) (Cfg [] [] s1)) by (apply rtc_once; right; by apply xs_recv).
    destruct (s_workers s !! w) as [[[c g]|]|] eqn:Ew.
    + destruct (s_clients s !! c) as [cl|] eqn:Ec.
      * assert (Hw : working s w c g) by done.
        destruct (co_jobs _ Hcore0 w c g Hw cl Ec) as (gr&Hgr&Hh).
        rewrite (proj2 (core_lookup _ _ _ _ _ Hcore0 Ec) Hgr).
        case_bool_decide as Hlen; [|done].
        assert (Houts : forall f, f ∈ group_outputs gr -> is_Some (outs !! f)) by (eapply Hmsg; eauto).
        set (s2 := completed_state w c cl g gr results outs s1).
        assert (H2 : rtc step (Cfg [] [] s) (Cfg [] (map (pair c) (group_outputs gr)) s2)).
        { eapply rtc_r; [exact Hrecv|]. right. by apply xs_complete. }
        destruct (steps_base_core _ _ Hb0 Hcore0 H2) as [Hb2 Hcore2].
        set (cl2 := set_handles (outs ∪ cl_handles cl) (set_running (cl_running cl ∖ {[g]}) cl)).
        assert (Hcl2 : s_clients s2 !! c = Some cl2) by (unfold s2; rewrite completed_clients; apply lookup_insert).
        assert (Hgu : g_uuid gr = g). { destruct (co_dag _ Hcore0 c cl Ec) as [(_&_&Hk) _]. by apply Hk. }
        destruct (propagate_walk env (sc_top env) (mu s2) [] [] c cl2 g gr false results outs s2 Henv) as (s3&E3&H3).
        { by apply sc_top_spec. } { rewrite app_nil_r. done. } { done. } { done. } { done. }
        { intros f Hf. simpl. rewrite lookup_union_is_Some. left. by apply Houts. }
        { unfold s2. rewrite completed_log, Hgu. apply elem_of_app. right. left. }
        rewrite app_nil_r in H3.
        assert (Eq : exec_completed env (sc_top env) c gr results outs false
           (upd_client c (set_running (cl_running cl ∖ {[g]}) cl) (set_workers (delete w (s_workers s)) s1)) = ROk s3).
        { rewrite <- E3. unfold exec_completed. simpl. rewrite lookup_insert. fold (all_success results). fold (any_internal results).
          unfold propagate. replace (if negb (any_internal results) then _ else _) with (ROk s2); [done|].
          unfold s2, completed_state. destruct (any_internal results); simpl; [done|].
          unfold cache_execution. simpl. rewrite lookup_insert. simpl.
          rewrite !bool_decide_eq_true_2; [done| |].
          - apply Forall_forall. intros f Hf. apply Houts. done.
          - apply Forall_forall. intros f Hf. apply outs_union_handles. by apply Hh. }
        match goal with |- context [exec_completed ?a ?b ?c' ?d' ?e' ?f' ?g' ?x] =>
          replace (exec_completed a b c' d' e' f' g' x) with (ROk s3) by (symmetry; exact Eq) end. simpl.
        assert (Hcore3 : core (Cfg [] [] s3)) by (eapply isteps_core; [exact Hcore2|exact H3]).
        destruct (assign_walk env [] [] s3 Henv Hcore3) as (s4&E4&H4&Hn4). rewrite E4. simpl.
        intros [= <-]. eapply (wh_start _ _ (set_workers (delete w (s_workers s)) s1)); [done|done|done|].
        eapply (wg_trans _ s2).
        { assert (D : dom (s_clients s2) = dom (s_clients s)) by (unfold s2; rewrite completed_clients; simpl; by eapply dom_upd).
          eapply wg_quiet; [unfold s2; rewrite completed_log, Hgu; reflexivity| | |exact D].
          - constructor; [done|]. apply Forall_app. split; [apply notify_done_quiet|]. destruct (any_internal results); repeat constructor.
          - unfold s2. by rewrite completed_workers. }
        eapply wg_trans; [exact (isteps_wg _ _ Hcore2 H3)|]. eapply wg_trans; [exact (isteps_wg _ _ Hcore3 H4)|apply check_completion_wg].
      * set (s2 := set_workers (delete w (s_workers s)) s1).
        assert (H2 : rtc step (Cfg [] [] s) (Cfg [] [] s2)).
        { eapply rtc_r; [exact Hrecv|]. right. apply (xs_wdel s1). intros c' g' Hx. unfold working in Hx. simpl in *. congruence. }
        destruct (steps_base_core _ _ Hb0 Hcore0 H2) as [Hb2 Hcore2].
        destruct (assign_walk env [] [] s2 Henv Hcore2) as (s4&E4&H4&Hn4). 
        match goal with |- context [assign_jobs ?a ?x] =>
          replace (assign_jobs a x) with (ROk s4) by (symmetry; exact E4) end. simpl.
        intros [= <-]. eapply (wh_start _ _ s2); [done|done|done|]. eapply wg_trans; [exact (isteps_wg _ _ Hcore2 H4)|apply check_completion_wg].
    + intros [= <-]. eapply wh_start; [| | |by apply wg_refl]; done.
    + intros [= <-]. eapply (wh_start _ _ s1); [done| |done|by apply wg_refl]. cbn. symmetry. by apply delete_notin.
  - (* WorkerConnected *)
    unfold handle_worker_connected. simpl.
    set (s2 := set_workers (<[w:=None]> (s_workers s)) s1).
    assert (H2 : rtc step (Cfg [] [] s) (Cfg [] [] s2)).
    { eapply (rtc_l _ _ (Cfg [] [] s1)); [right; by apply xs_recv|]. apply rtc_once. right. apply (xs_wadd s1). intros c g Hw. by eapply Hmsg. }
    destruct (steps_base_core _ _ Hb0 Hcore0 H2) as [Hb2 Hcore2].
    destruct (assign_walk env [] [] s2 Henv Hcore2) as (s4&E4&H4&Hn4).
    match goal with |- context [assign_jobs ?a ?x] =>
      replace (assign_jobs a x) with (ROk s4) by (symmetry; exact E4) end.
    intros [= <-]. eapply (wh_start _ _ s2); [done|done|done|]. exact (isteps_wg _ _ Hcore2 H4).
  - (* WorkerDisconnected *)
    unfold handle_worker_disconnected. simpl.
    destruct (s_workers s !! w) as [[[c g]|]|] eqn:Ew.
    + destruct (s_clients s !! c) as [cl|] eqn:Ec.
      * destruct (alookup g (d_groups (cl_dag cl))) as [gr|]; [|done]. intros [= <-].
        eapply (wh_start _ _ (set_workers (delete w (s_workers s)) s1)); [done|done|done|].
        eapply wg_quiet; [reflexivity|repeat constructor|done|]. simpl; by eapply dom_upd.
      * intros [= <-]. eapply wh_start; [| | |by apply wg_refl]; done.
    + intros [= <-]. eapply wh_start; [| | |by apply wg_refl]; done.
    + intros [= <-]. eapply (wh_start _ _ s1); [done| |done|by apply wg_refl]. cbn. symmetry. by apply delete_notin.
  - (* StatusRequest *)
    unfold handle_status_request. simpl. destruct (rfold _ _ _) as [l| | |]; simpl; [|done..].
    intros [= <-]. eapply (wh_start _ _ s1); [done|done|done|]. eapply wg_quiet; [reflexivity|repeat constructor|done|done].
Qed.

Lemma reachable_known env s : env_ok env -> reachable env s ->
  s_workers s = workers_after (s_log s) /\ dom (s_clients s) = clients_after (s_log s).
Proof.
  intros Henv. induction 1 as [|s m s' Hr [IW IC] Hm Hh]; [split; [done|]; simpl; by rewrite dom_empty_L|].
  destruct (reachable_steps env s Henv Hr) as (_&Hb&Hc).
  destruct (handle_wh env m s s' Henv Hb Hc Hm Hh) as (l&El&F&W&D).
  unfold workers_after, clients_after in *. rewrite El, !fold_left_app. simpl. rewrite <- IW, <- IC. split; [done|]. rewrite D.
  assert (F' : forall C, fold_left client_event l C = C).
  { clear -F. induction F as [|ev l H F IH]; intros C; simpl; [done|]. rewrite IH. by destruct ev. }
  by rewrite F'.
Qed.

(** The worker list of the answer. *)
Lemma status_list s ws : core (Cfg [] [] s) -> (forall wj, wj ∈ ws -> s_workers s !! wj.1 = Some wj.2) -> forall acc,
  rfold (fun acc (wj : worker_uuid * option (client_uuid * group_uuid)) =>
    match wj.2 with
    | None => ROk (acc ++ [(wj.1, None)])
    | Some (owner, g) =>
      match s_clients s !! owner with
      | None => ROk (acc ++ [(wj.1, None)])
      | Some cl => match alookup g (d_groups (cl_dag cl)) with
                   | None => RPanic
                   | Some _ => ROk (acc ++ [(wj.1, Some (owner, g))])
                   end
      end
    end) ws acc = ROk (acc ++ map (fun wj => (wj.1, reported_job (dom (s_clients s)) wj.2)) ws).
Proof.
  intros Hcore. induction ws as [|[w job] ws IH]; intros Hws acc; simpl; [by rewrite app_nil_r|].
  assert (Hw : s_workers s !! w = Some job) by (apply (Hws (w, job)); left).
  assert (Hws' : forall wj, wj ∈ ws -> s_workers s !! wj.1 = Some wj.2) by (intros; apply Hws; by right).
  destruct job as [[c g]|]; simpl; [|by rewrite IH, <- app_assoc].
  destruct (s_clients s !! c) as [cl|] eqn:Ec; simpl.
  - destruct (co_jobs _ Hcore w c g Hw cl Ec) as (gr&Hgr&_).
    rewrite (proj2 (core_lookup _ _ _ _ _ Hcore Ec) Hgr). simpl. rewrite IH, <- app_assoc by done.
    rewrite bool_decide_eq_true_2; [done|]. by apply elem_of_dom_2 in Ec.
  - rewrite IH, <- app_assoc by done. rewrite bool_decide_eq_false_2; [done|]. by apply not_elem_of_dom.
Qed.

(** The sum of the sizes over the clients is the size of the set of the pairs. *)
Definition pairs (sz : client -> gset group_uuid) (m : gmap client_uuid client) : gset (client_uuid * group_uuid) :=
  map_fold (fun c cl acc => set_map (pair c) (sz cl) ∪ acc) ∅ m.
Lemma size_pairs (c : client_uuid) (X : gset group_uuid) : size (set_map (pair c) X : gset (client_uuid * group_uuid)) = size X.
Proof.
  unfold set_map. rewrite size_list_to_set.
  - by rewrite fmap_length.
  - apply NoDup_fmap_2; [by intros ?? [= ->]|apply NoDup_elements].
Qed.
Lemma pairs_ok sz m : (forall c g, (c, g) ∈ pairs sz m <-> exists cl, m !! c = Some cl /\ g ∈ sz cl) /\
  map_fold (fun _ cl n => size (sz cl) + n) 0 m = size (pairs sz m).
Proof.
  unfold pairs. induction m as [|c cl m Hc IH] using map_ind.
  - rewrite !map_fold_empty. split; [|done]. intros c g. split; [set_solver|]. intros (cl&E&_). by rewrite lookup_empty in E.
  - destruct IH as [IH1 IH2]. rewrite !map_fold_insert_L; [|intros j1 j2 z1 z2 y _ _ _; cbv beta; lia|done|intros j1 j2 z1 z2 y _ _ _; cbv beta; by rewrite !(assoc_L _), (comm_L _ (set_map _ (sz z1)))|done]. split.
    + intros c' g. rewrite elem_of_union, IH1, elem_of_map. split.
      * intros [(g'&[= -> ->]&Hg)|(cl'&E&Hg)].
        -- exists cl. by rewrite lookup_insert.
        -- exists cl'. rewrite lookup_insert_ne; [done|]. congruence.
      * intros (cl'&E&Hg). apply lookup_insert_Some in E as [[<- ->]|[Hne E]]; [left; eauto|right; eauto].
    + rewrite IH2, size_union; [by rewrite size_pairs|].
      intros [c' g] Hin1 Hin2. apply IH1 in Hin2 as (cl'&E&_). apply elem_of_map in Hin1 as (g'&[= -> ->]&_). congruence.
Qed.

Lemma status_handler env c s : env_ok env -> core (Cfg [] [] s) ->
  handle_status_request env c s =
  ROk (emit [ESend c (MStatus (size (pairs cl_ready (s_clients s))) (size (pairs (fun cl => dom (cl_missing cl)) (s_clients s)))
     (map (fun wj => (wj.1, reported_job (dom (s_clients s)) wj.2)) (e_ord env (s_tick s) _ (map_to_list (s_workers s)))))] (tick s)).
Proof.
  intros Henv Hcore. unfold handle_status_request. rewrite (status_list s _ Hcore).
  - simpl. do 4 f_equal. rewrite <- (proj2 (pairs_ok cl_ready (s_clients s))), <- (proj2 (pairs_ok (fun cl => dom (cl_missing cl)) (s_clients s))).
    f_equal. clear. induction (s_clients s) as [|c cl m Hc IH] using map_ind; [by rewrite !map_fold_empty|].
    rewrite !map_fold_insert_L; [|lia|done|lia|done]. rewrite IH, size_dom. done.
  - intros [w j] Hin. rewrite (eo_ord _ Henv) in Hin. by apply elem_of_map_to_list in Hin.
Qed.
