(** * UiStateProps2: property C55: consequences, generation, checks, what does not hold *)
From Verif Require Import ChecksSpec ChecksProps ScoreSpec ScoreProps UiStateSpec UiStateProofs UiStateProofs2 UiStateProofs3 UiStateProps.

Lemma lt_zero_cases v : no_nan v -> f64_lt v f64_zero = false -> f64_lt f64_zero v = true \/ f64_eq v f64_zero = true.
Proof. unfold no_nan, f64_lt, f64_eq, SFltb, SFeqb, f64_zero. destruct v as [s|s| |s m e]; try done; destruct s; simpl; auto. Qed.
(** If a process fails, and the manager does not give a negative score, the testcase is not shown as accepted nor as partially correct *)
Theorem C55_communication_failed parse totext show t n st tc sol ms results manager starts ends log u v m :
  tc ∈ ut_testcases t -> comm_complete n results manager starts ends -> comm_log parse totext show n st tc sol (starts ++ ends) = Some log ->
  List.filter (about sol tc) ms = log -> ui_run t ms (new_ui_state t) = Some u ->
  manager_answer parse totext manager = Some (v, m) -> no_nan v -> f64_lt v f64_zero = false ->
  Exists (fun r => res_status r <> Success) results ->
  exists x, shown u sol tc = Some x /\ has_completed (t_status x) = true /\ forall msg, t_status x <> EAccepted msg /\ t_status x <> EPartial msg.
Proof.
  intros Htc Hc Hlog Hf Hu Hm Hn Hv Hex.
  destruct (C55_communication parse totext show t n st tc sol ms results manager starts ends log u v m) as (x & score & msg & Hx & _ & _ & _ & Hw & _ & Hz & Hfail & Hok); [done..|].
  exists x. split; [done|].
  assert (f64_eq score f64_zero = true) as Hs.
  { destruct (lt_zero_cases v Hn Hv) as [Hp|He]; [by rewrite Hz|].
    (* all the scores heard are zero *)
    destruct Hw as (l1 & l2 & Hl & _). assert (Some (score, msg) ∈ omap (fun e => g ← to_group e; group_answer parse totext show g) ends) as Hin by (rewrite Hl, elem_of_app; right; by left).
    apply elem_of_list_omap in Hin as (e & Hin & He'). destruct Hc as (_ & _ & _ & Hp). rewrite Hp in Hin. apply elem_of_cons in Hin as [->|Hin].
    - simpl in He'. rewrite Hm in He'. simpl in He'. by injection He' as <- <-.
    - apply elem_of_lookup_imap in Hin as (i & r & -> & _). simpl in He'. unfold process_answer in He'. destruct (is_success (res_status r)); [done|]. by injection He' as <- <-. }
  destruct (last_status_spec ends EPending) as [(r & Hr & _)|(Hr & _)].
  - destruct (decide (res_status r = Success)) as [Es|Es].
    + assert (score_outcome score msg (t_status x)) as Ho. { apply Hok. intros r' Hr'. by rewrite (last_process_unique _ _ _ Hr' Hr). }
      split; [by eapply score_outcome_completed|]. intros msg'. destruct Ho as [|D|D]; [done|congruence|congruence].
    + specialize (Hfail r Hr Es). split; [by eapply failure_completed|]. intros msg'. by destruct Hfail.
  - assert (score_outcome score msg (t_status x)) as Ho. { apply Hok. intros r' Hr'. by apply Hr in Hr'. }
    split; [by eapply score_outcome_completed|]. intros msg'. destruct Ho as [|D|D]; [done|congruence|congruence].
Qed.
(** ** Generation: whatever the other messages, a failure is shown as such, else what was heard last; the results are kept *)
Theorem C55_generation t ms st s tc l pending u :
  ut_subtasks t !! st = Some s -> tc ∈ us_owned s -> legal_gen l ->
  Forall (fun m => m = MGeneration st tc UPending \/ m = MValidation st tc UPending \/ m = MSolution st tc UPending) pending ->
  List.filter (about_gen st tc) ms = pending ++ map (gen_message st tc) l -> ui_run t ms (new_ui_state t) = Some u ->
  exists g, shown_gen u st tc = Some g /\ gen_outcome l (g_status g) /\
    (forall r, g_generation g = Some r <-> OnGenerator (XDone r) ∈ l) /\
    (forall r, g_validation g = Some r <-> OnValidator (XDone r) ∈ l) /\
    (forall r, g_solution g = Some r <-> OnOfficial (XDone r) ∈ l).
Proof.
  intros Hs Htc Hl Hp Hf Hu. rewrite (ui_run_gen _ _ _ _ _ _ _ Hu (shown_gen_new t st tc s Hs Htc)), Hf, fold_left_app.
  eexists. split; [done|]. assert (fold_left (fun g m => gen_step m g) pending new_gen_state = new_gen_state) as ->.
  { clear Hf. induction Hp as [|m p Hm Hp IH]; simpl; [done|]. destruct Hm as [->|[->| ->]]; exact IH. }
  by apply (gen_run st tc l new_gen_state).
Qed.
(** In particular the testcase is shown as failed if and only if one of its executions failed, as solved if and only if the official solution succeeded *)
Theorem C55_generation_failed l g : legal_gen l -> gen_outcome l g -> (g = GFailed <-> gen_fails l).
Proof.
  intros Hl Ho. split; [intros ->; by apply gen_outcome_failed|]. intros Hf. destruct Ho as [l H|l e H|l e w H|l e r H|]; try done. by apply gen_fails_nil in Hf.
Qed.
Theorem C55_generation_solved l g : legal_gen l -> gen_outcome l g -> (g = GSolved <-> exists r, OnOfficial (XDone r) ∈ l /\ res_status r = Success).
Proof.
  intros Hl Ho. split.
  - intros ->. inversion Ho as [|l' e Hn He|l' e w Hn He E1 E2|l' e r Hn He E1 E2|]; subst; try (by destruct e).
    destruct e as [e|e|e]; try done. simpl in He. subst e. exists r. split; [rewrite in_snoc; by right|].
    destruct (decide (res_status r = Success)) as [?|Hne]; [done|]. exfalso. apply Hn. exists (OnOfficial (XDone r)), r. split; [rewrite in_snoc; by right|done].
  - intros (r & Hin & Hr).
    assert (~ gen_fails l) as Hnf.
    { intros (e & r' & Hine & He & Hr'). apply elem_of_list_lookup in Hin as [i Hi]. apply elem_of_list_lookup in Hine as [j Hj].
      destruct (lt_eq_lt_dec i j) as [[Hij| ->]|Hij].
      - destruct (Hl (take j l) e (drop (S j) l)) with (e' := OnOfficial (XDone r)) as (L1 & L2 & L3); [by rewrite take_drop_middle|by eapply in_take|].
        destruct e as [e|e|e]; simpl in *; [by (specialize (L2 ltac:(lia)))|by (specialize (L2 ltac:(lia)))|]. apply L1; [done|]. right. by eexists.
      - rewrite Hi in Hj. injection Hj as <-. simpl in He. congruence.
      - destruct (Hl (take i l) (OnOfficial (XDone r)) (drop (S i) l)) with (e' := e) as (L1 & L2 & L3); [by rewrite take_drop_middle|by eapply in_take|].
        destruct e as [e|e|e]; simpl in *; subst e.
        + apply L3; [lia|done|]. right. by exists r'.
        + apply L3; [lia|done|]. right. by exists r'.
        + apply L1; [done|]. right. by eexists. }
    assert (forall l' e, l = l' ++ [e] -> e = OnOfficial (XDone r)) as Hlast.
    { intros l' e ->. apply in_snoc in Hin as [Hin|Hin]; [|done]. exfalso. destruct (Hl l' e [] eq_refl _ Hin) as (L1 & L2 & L3).
      destruct e as [e|e|e]; simpl in *; [by (specialize (L2 ltac:(lia)))|by (specialize (L2 ltac:(lia)))|]. apply L1; [done|]. right. by eexists. }
    destruct Ho as [l H|l e H He|l e w H He|l e r' H He|].
    + done.
    + rewrite (Hlast l e eq_refl) in He. done.
    + rewrite (Hlast l e eq_refl) in He. done.
    + by rewrite (Hlast l e eq_refl).
    + by apply elem_of_nil in Hin.
Qed.

(** ** Checks: the outcomes reported are those of the checks of the solutions against the subtasks that match and where every testcase has an outcome,
    and each tells whether the check holds of the outcomes that are shown (C47) *)
Lemma eval_result_reported x r : eval_result x = Some r <-> reported x r.
Proof. split; [destruct x; intros [= <-]; constructor|by intros []]. Qed.
Theorem C55_checks t order wild sols u outs :
  run_solution_checks t order wild sols u = Some outs ->
  forall o, o ∈ outs <-> exists info s name outcomes,
    (co_solution o, info) ∈ sols /\ co_check o ∈ si_checks info /\
    co_subtask o ∈ order /\ ut_subtasks t !! co_subtask o = Some s /\ us_name s = Some name /\ wild (sc_pattern (co_check o)) name = true /\
    is_Some (u_evaluations u !! co_solution o) /\
    Forall2 (fun tc r => exists x, shown u (co_solution o) tc = Some x /\ reported (t_status x) r) (us_testcases s) outcomes /\
    (co_success o = true <-> documented (sc_kind (co_check o)) outcomes).
Proof.
  unfold run_solution_checks. intros H o. set (todo := sols ≫= _) in H. destruct (mapM _ todo) as [l|] eqn:El; simpl in H; [|done]. injection H as <-.
  pose proof (proj1 (mapM_Some _ _ _) El) as F2.
  assert (forall sol c st, (sol, c, st) ∈ todo <-> exists info, (sol, info) ∈ sols /\ c ∈ si_checks info /\ st ∈ matching_subtasks t order wild (sc_pattern c)) as Htodo.
  { intros sol c st. unfold todo. rewrite elem_of_list_bind. split.
    - intros ([sol' info] & Hin & Hs). apply elem_of_list_bind in Hin as (c' & Hin & Hc). apply elem_of_list_bind in Hin as (st' & Hin & Hst).
      apply elem_of_list_singleton in Hin as [= -> -> ->]. exists info. done.
    - intros (info & Hs & Hc & Hst). exists (sol, info). split; [|done]. apply elem_of_list_bind. exists c. split; [|done]. apply elem_of_list_bind. exists st. split; [|done]. by apply elem_of_list_singleton. }
  assert (forall c st, st ∈ matching_subtasks t order wild (sc_pattern c) <-> st ∈ order /\ exists s name, ut_subtasks t !! st = Some s /\ us_name s = Some name /\ wild (sc_pattern c) name = true) as Hmatch.
  { intros c st. unfold matching_subtasks. rewrite elem_of_list_In, filter_In, <- elem_of_list_In. split.
    - intros [Hin Hm]. split; [done|]. destruct (ut_subtasks t !! st) as [s|]; [|done]. destruct (us_name s) as [name|] eqn:En; [|done]. by exists s, name.
    - intros [Hin (s & name & -> & -> & Hw)]. done. }
  assert (forall sol c st s, ut_subtasks t !! st = Some s -> forall r, check_subtask t u sol c st = Some (Some r) <->
    is_Some (u_evaluations u !! sol) /\ exists outcomes, Forall2 (fun tc r => exists x, shown u sol tc = Some x /\ reported (t_status x) r) (us_testcases s) outcomes /\
      r = CheckOutcome sol c st (check (sc_kind c) outcomes)) as Hcheck.
  { intros sol c st s Hs r. unfold check_subtask, shown. destruct (u_evaluations u !! sol) as [e|]; simpl; [|split; [done|]; by intros [[? ?] _]].
    rewrite Hs. simpl. split.
    - destruct (mapM _ (us_testcases s)) as [res|] eqn:E1; simpl; [|done]. destruct (mapM id res) as [outcomes|] eqn:E2; [|done]. intros [= <-]. split; [by eexists|]. exists outcomes. split; [|done].
      apply mapM_Some in E1, E2. clear -E1 E2. revert outcomes E2. induction E1 as [|tc a tcs res Ha E1 IH]; intros outcomes E2; [by apply Forall2_nil_inv_l in E2 as ->|].
      apply Forall2_cons_inv_l in E2 as (b & bs & Hb & E2 & ->). constructor; [|by apply IH]. apply fmap_Some in Ha as (x & Hx & ->). simpl in Hb. exists x. split; [done|]. by apply eval_result_reported.
    - intros (_ & outcomes & F & ->).
      assert (mapM (fun tc => eval_result ∘ t_status <$> e_testcases e !! tc) (us_testcases s) = Some (map Some outcomes)) as ->.
      { clear -F. apply mapM_Some. induction F as [|tc a tcs res (x & Hx & Ha) F IH]; simpl; constructor; [|done]. rewrite Hx. simpl. apply eval_result_reported in Ha. by rewrite Ha. }
      simpl. assert (mapM id (map Some outcomes) = Some outcomes) as ->; [|done]. clear. induction outcomes as [|o l IH]; simpl; [done|]. by rewrite IH. }
  split.
  - intros Hin. apply elem_of_list_omap in Hin as (y & Hin & Hy). simpl in Hy. subst y. apply elem_of_list_lookup in Hin as [i Hi].
    destruct (Forall2_lookup_r _ _ _ _ _ F2 Hi) as ([[sol c] st] & Hx & Hc). simpl in Hc. apply elem_of_list_lookup_2 in Hx. apply Htodo in Hx as (info & H1 & H2 & H3).
    apply Hmatch in H3 as (H3 & s & name & H4 & H5 & H6). apply (Hcheck _ _ _ _ H4) in Hc as (H7 & outcomes & H8 & ->). exists info, s, name, outcomes. simpl.
    split; [done|]. split; [done|]. split; [done|]. split; [done|]. split; [done|]. split; [done|]. split; [done|]. split; [done|]. apply C47_documented.
  - intros (info & s & name & outcomes & H1 & H2 & H3 & H4 & H5 & H6 & H7 & H8 & H9). apply elem_of_list_omap.
    destruct o as [sol c st b]. simpl in *. assert (b = check (sc_kind c) outcomes) as ->.
    { pose proof (C47_documented (sc_kind c) outcomes) as Hd. destruct b, (check (sc_kind c) outcomes); try done; exfalso.
      - discriminate (proj2 Hd (proj1 H9 eq_refl)).
      - discriminate (proj2 H9 (proj1 Hd eq_refl)). }
    exists (Some (CheckOutcome sol c st (check (sc_kind c) outcomes))). split; [|done].
    assert ((sol, c, st) ∈ todo) as Hin. { apply Htodo. exists info. split; [done|]. split; [done|]. apply Hmatch. split; [done|]. by exists s, name. }
    apply elem_of_list_lookup in Hin as [i Hi]. destruct (Forall2_lookup_l _ _ _ _ _ F2 Hi) as (y & Hy & Hc). simpl in Hc.
    assert (check_subtask t u sol c st = Some (Some (CheckOutcome sol c st (check (sc_kind c) outcomes)))) as E. { apply (Hcheck _ _ _ _ H4). split; [done|]. by exists outcomes. }
    rewrite E in Hc. injection Hc as <-. by eapply elem_of_list_lookup_2.
Qed.
(** The checks never panic *)
Theorem C55_checks_total t order wild sols ms u :
  (forall st s, ut_subtasks t !! st = Some s -> forall tc, tc ∈ us_testcases s -> tc ∈ ut_testcases t) ->
  Forall (message_ok t) ms -> steps_agree ms -> ui_run t ms (new_ui_state t) = Some u ->
  is_Some (run_solution_checks t order wild sols u).
Proof.
  intros Htcs Hm Hs Hu. unfold run_solution_checks. set (todo := sols ≫= _).
  assert (is_Some (mapM (fun x : path * sol_check * nat => check_subtask t u x.1.1 x.1.2 x.2) todo)) as [l ->]; [|by eexists].
  apply mapM_is_Some_2, Forall_forall. intros [[sol c] st] Hin. simpl.
  unfold todo in Hin. apply elem_of_list_bind in Hin as ([sol' info] & Hin & Hs'). apply elem_of_list_bind in Hin as (c' & Hin & Hc). apply elem_of_list_bind in Hin as (st' & Hin & Hst).
  apply elem_of_list_singleton in Hin as [= -> -> ->]. unfold matching_subtasks in Hst. rewrite elem_of_list_In, filter_In, <- elem_of_list_In in Hst. destruct Hst as [_ Hst].
  unfold check_subtask. destruct (u_evaluations u !! sol') as [e|] eqn:Ee; [|by eexists]. destruct (ut_subtasks t !! st') as [s|] eqn:Est; [|done]. simpl.
  assert (is_Some (mapM (fun tc => eval_result ∘ t_status <$> e_testcases e !! tc) (us_testcases s))) as [res ->].
  { apply mapM_is_Some_2, Forall_forall. intros tc Htc. assert (tc ∈ ut_testcases t) as Ht by (by eapply Htcs).
    destruct (ui_run_tc t ms _ u sol' tc _ Hu (tc_of_new t sol' tc Ht)) as (x & Hx & _). unfold tc_of, the_eval in Hx. rewrite Ee in Hx. simpl in Hx.
    exists (eval_result (t_status x)). apply fmap_Some. by exists x. }
  simpl. destruct (mapM id res); by eexists.
Qed.

(** ** What does not hold *)
Definition demo_result (s : status) : exec_result := ExecResult s false false (Resources 0 0 0 0) (Some []) (Some []).
Definition demo_task : ui_task := UiTask {[ 0 := UiSubtask (Some (chars "easy")) [0] [0]; 1 := UiSubtask (Some (chars "hard")) [] [0] ]} {[ 0 ]}.
Definition demo_answer (score : f64) : list N -> option f64 := fun _ => Some score.
Definition demo_show (s : status) : string := match s with TimeLimitExceeded => "TimeLimitExceeded" | _ => "failed" end.
(** A communication task with two processes, the first of which exceeds the time limit: what is shown is a wrong answer, ... *)
Definition demo_ends : list comm_event :=
  [OnProcess 0 (XDone (demo_result TimeLimitExceeded)); OnProcess 1 (XDone (demo_result Success)); OnManager (XDone (demo_result Success))].
Definition demo_comm_log : list ui_message :=
  default [] (comm_log (demo_answer f64_zero) (fun _ => ""%string) demo_show 2 0 0 "sol.cpp" ([] ++ demo_ends)).
Theorem C55_communication_outcome_refuted :
  comm_complete 2 [demo_result TimeLimitExceeded; demo_result Success] (demo_result Success) [] demo_ends /\
  comm_log (demo_answer f64_zero) (fun _ => ""%string) demo_show 2 0 0 "sol.cpp" ([] ++ demo_ends) = Some demo_comm_log /\
  (u ← ui_run demo_task demo_comm_log (new_ui_state demo_task); x ← shown u "sol.cpp" 0; Some (t_status x)) = Some (EWrongAnswer "TimeLimitExceeded").
Proof.
  split.
  { split; [done|]. split; [constructor|]. split; [intros i w H; by apply elem_of_nil in H|]. simpl. unfold demo_ends.
    change ([OnProcess 0 (XDone (demo_result TimeLimitExceeded)); OnProcess 1 (XDone (demo_result Success)); OnManager (XDone (demo_result Success))])
      with ([OnProcess 0 (XDone (demo_result TimeLimitExceeded)); OnProcess 1 (XDone (demo_result Success))] ++ [OnManager (XDone (demo_result Success))]).
    by rewrite Permutation_app_comm. }
  split; vm_compute; reflexivity.
Qed.
(** ... so the check [@check-time-limit-exceeded] of that solution does not hold; with the two processes exchanged it does. *)
Definition demo_check : sol_check := SolCheck KTimeLimit (chars "*") 0.
Definition demo_sols : list (path * sol_info) := [("sol.cpp"%string, SolInfo "sol.cpp" [demo_check])].
Definition demo_ends' : list comm_event :=
  [OnProcess 0 (XDone (demo_result Success)); OnProcess 1 (XDone (demo_result TimeLimitExceeded)); OnManager (XDone (demo_result Success))].
Theorem C55_communication_check_refuted :
  (u ← ui_run demo_task demo_comm_log (new_ui_state demo_task); run_solution_checks demo_task [0] (fun _ _ => true) demo_sols u)
    = Some [CheckOutcome "sol.cpp" demo_check 0 false] /\
  (ms ← comm_log (demo_answer f64_zero) (fun _ => ""%string) demo_show 2 0 0 "sol.cpp" ([] ++ demo_ends');
   u ← ui_run demo_task ms (new_ui_state demo_task); run_solution_checks demo_task [0] (fun _ _ => true) demo_sols u)
    = Some [CheckOutcome "sol.cpp" demo_check 0 true].
Proof. split; vm_compute; reflexivity. Qed.
(** For arbitrary messages a failure can become a success: nothing in the state prevents it *)
Theorem C55_any_order_refuted : exists ms1 ms2,
  Forall (message_ok demo_task) (ms1 ++ ms2) /\
  (u ← ui_run demo_task ms1 (new_ui_state demo_task); x ← shown u "sol.cpp" 0; Some (t_status x)) = Some ETimeLimit /\
  (u ← ui_run demo_task (ms1 ++ ms2) (new_ui_state demo_task); x ← shown u "sol.cpp" 0; Some (t_status x)) = Some (EAccepted "ok").
Proof.
  exists [MEvaluation 0 0 "sol.cpp" (UDone (demo_result TimeLimitExceeded)) 0 1],
    [MEvaluation 0 0 "sol.cpp" (UStarted 0) 0 1; MTestcaseScore 0 0 "sol.cpp" f64_one "ok"].
  split; [repeat constructor; simpl; try lia; by apply elem_of_singleton|]. split; vm_compute; reflexivity.
Qed.
(** A validator that fails on a testcase of another subtask is not shown in the generation of the testcase *)
Theorem C55_other_validator_refuted :
  (u ← ui_run demo_task [MValidation 0 0 (UDone (demo_result Success)); MValidation 1 0 (UDone (demo_result (ReturnCode 1)))] (new_ui_state demo_task);
   g ← shown_gen u 0 0; Some (g_status g, match shown_gen u 1 0 with None => true | Some _ => false end)) = Some (GValidated, true).
Proof. vm_compute. reflexivity. Qed.
(** If the official solution is skipped (it does not compile) before the input is generated, what is shown at the end depends on that order *)
Theorem C55_generation_skip_refuted : exists l1 l2, l1 ≡ₚ l2 /\ legal_gen l1 /\ legal_gen l2 /\
  gen_outcome l1 GGenerated /\ gen_outcome l2 GSkipped.
Proof.
  exists [OnOfficial XSkipped; OnGenerator (XDone (demo_result Success))], [OnGenerator (XDone (demo_result Success)); OnOfficial XSkipped].
  assert (forall e1 e2 : gen_event, (forall x, x = e1 -> (stage x = stage e2 -> ~ ends (event_of x)) /\ (stage e2 < stage x -> event_of x = XSkipped) /\
    (stage x < stage e2 -> event_of e2 <> XSkipped -> ~ bad_end (event_of x))) -> legal_gen [e1; e2]) as Hleg.
  { intros e1 e2 H l1 e l2 Heq e' He'. destruct l1 as [|a l1]; [by apply elem_of_nil in He'|]. simpl in Heq. injection Heq as <- Heq.
    destruct l1 as [|b l1]; simpl in Heq; [|injection Heq as _ Heq; by destruct l1]. injection Heq as <- <-. apply elem_of_list_singleton in He' as ->. by apply H. }
  split; [apply Permutation_swap|]. split; [|split; [|split]].
  - apply Hleg. intros x ->. simpl. split; [lia|]. split; [done|]. intros. lia.
  - apply Hleg. intros x ->. simpl. split; [lia|]. split; [lia|]. done.
  - apply (gen_done [OnOfficial XSkipped] (OnGenerator (XDone (demo_result Success))) (demo_result Success)); [|done].
    intros (e & r & Hin & He & Hr). apply elem_of_cons in Hin as [->|Hin]; [done|]. apply elem_of_list_singleton in Hin as ->. simpl in He. by injection He as <-.
  - apply (gen_skipped [OnGenerator (XDone (demo_result Success))] (OnOfficial XSkipped)); [|done].
    intros (e & r & Hin & He & Hr). apply elem_of_cons in Hin as [->|Hin]; [simpl in He; by injection He as <-|]. by apply elem_of_list_singleton in Hin as ->.
Qed.

(** ** The hypotheses are met *)
(** A batch task: the solution and the checker succeed, with the messages of another solution in between *)
Definition demo_events : list tc_event :=
  [OnSolution (XStarted 3); OnSolution (XDone (demo_result Success)); OnChecker (XStarted 4); OnChecker (XDone (demo_result Success))].
Lemma demo_legal : legal demo_events.
Proof.
  intros l1 e l2 H. unfold demo_events in H.
  assert (forall r, OnSolution (XDone r) ∉ [OnSolution (XStarted 3)]) as H3.
  { intros r Hr. by apply elem_of_list_singleton in Hr. }
  destruct l1 as [|a l1]; simpl in H; [injection H as <- <-; intros (e & Hin & _); by apply elem_of_nil in Hin|]. injection H as <- H.
  destruct l1 as [|a l1]; simpl in H; [injection H as <- <-; intros (e & Hin & He); apply elem_of_list_singleton in Hin as [= ->]; by destruct He as [?|[? ?]]|]. injection H as <- H.
  destruct l1 as [|a l1]; simpl in H.
  { injection H as <- <-. split; [exists (demo_result Success); split; [right; by left|done]|]. intros (r & Hr). apply elem_of_cons in Hr as [?|Hr]; [done|]. by apply elem_of_list_singleton in Hr. }
  injection H as <- H. destruct l1 as [|a l1]; simpl in H.
  { injection H as <- <-. split; [exists (demo_result Success); split; [right; by left|done]|]. intros (r & Hr). repeat (apply elem_of_cons in Hr as [?|Hr]; [done|]). by apply elem_of_nil in Hr. }
  injection H as <- H. by destruct l1.
Qed.
Definition demo_log : list ui_message :=
  default [] (batch_log (demo_answer f64_one) (fun _ => "ok"%string) demo_show CustomChecker 0 0 "sol.cpp" demo_events).
Definition demo_messages : list ui_message := MEvaluation 0 0 "slow.cpp" (UDone (demo_result TimeLimitExceeded)) 0 1 :: demo_log.
Example C55_example :
  batch_log (demo_answer f64_one) (fun _ => "ok"%string) demo_show CustomChecker 0 0 "sol.cpp" demo_events = Some demo_log /\
  List.filter (about "sol.cpp" 0) demo_messages = demo_log /\
  (u ← ui_run demo_task demo_messages (new_ui_state demo_task); x ← shown u "sol.cpp" 0; Some (t_status x, t_score x)) = Some (EAccepted "ok", Some f64_one).
Proof. split_and!; vm_compute; reflexivity. Qed.

Print Assumptions C55_no_panic.
Print Assumptions C55_local.
Print Assumptions C55_batch.
Print Assumptions C55_final.
Print Assumptions C55_accepted.
Print Assumptions C55_communication.
Print Assumptions C55_communication_failed.
Print Assumptions C55_generation.
Print Assumptions C55_generation_solved.
Print Assumptions C55_checks.
Print Assumptions C55_checks_total.
Print Assumptions C55_communication_check_refuted.
