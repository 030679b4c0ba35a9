(** * ReportProps: the final report of an evaluation (C89) *)
From stdpp Require Import gmap strings sorting.
From Verif Require Import ReportSpec ReportProofs ReportProofs2.

Section report.
  Context (t : ui_task) (path_le : relation path) `{!RelDecision path_le} (close : tc_state -> bool).
  Context (order : list nat) (wild : text -> text -> bool) (is_symlink : path -> bool) (name_len : text -> nat).
  Context (u : ui_state) (sols : list (path * sol_info)) (sol_len : path -> nat).
  Hypothesis (Hu : reachable t u) (Howned : owned_once t) (Ht : testcases_exist t).
  Hypothesis (Horder : each_subtask t order) (Hsols : sols ≡ₚ map_to_list (u_solutions u)).
  Notation print := (print_report t path_le close order wild is_symlink name_len sols sol_len u).

  Lemma all_named_spec : all_named t = true <-> forall st s, ut_subtasks t !! st = Some s -> is_Some (us_name s).
  Proof.
    unfold all_named. rewrite forallb_forall. split.
    - intros H st s Hs. specialize (H (st, s)). cbn in H. destruct (us_name s); [by eexists|]. discriminate H. apply elem_of_list_In. by apply elem_of_map_to_list.
    - intros H [st s] Hin. apply elem_of_list_In, elem_of_map_to_list in Hin. cbn. by destruct (H _ _ Hin) as [x ->].
  Qed.

  (** The report is printed whatever has happened in the evaluation *)
  Theorem C89_no_panic : numbered t -> exists r, print = Some r.
  Proof using Hu Howned Ht Horder.
    intros Hnb. apply full_reachable in Hu. unfold print_report. destruct (generations_some t u Hu) as [g ->]. cbn [mbind option_bind].
    case_decide; [by eexists|]. destruct (evaluations_some t path_le u Hu Howned) as [e ->]. cbn [mbind option_bind].
    destruct (summary_some t path_le close u Hu Howned) as [s Hs]. destruct (all_named t) eqn:Hn.
    - destruct (table_some t path_le order wild is_symlink name_len u sols sol_len Hu Ht Horder) as [c ->]; [by apply all_named_spec|done|].
      cbn [mbind option_bind]. rewrite Hs. by eexists.
    - cbn [mbind option_bind]. rewrite Hs. by eexists.
  Qed.
  (** ... if the subtasks are numbered from zero; if all have a name and a number is missing it is not, and nothing after the evaluations is printed *)
  Theorem C89_gap_refuted : u_evaluations u <> ∅ -> (forall st s, ut_subtasks t !! st = Some s -> is_Some (us_name s)) ->
    (exists st, is_Some (ut_subtasks t !! st) /\ (size (ut_subtasks t) <= st)%nat) -> print = None.
  Proof using Hu Howned Ht Horder.
    intros He Hn Hg. apply full_reachable in Hu. unfold print_report. destruct (generations_some t u Hu) as [g ->]. cbn [mbind option_bind].
    rewrite decide_False by done. destruct (evaluations_some t path_le u Hu Howned) as [e ->]. cbn [mbind option_bind].
    rewrite (proj2 all_named_spec Hn). by rewrite (table_panics t path_le order wild is_symlink name_len u sols sol_len Hu Ht Horder Hg).
  Qed.

  (** ** The generations *)
  (** Each subtask, in order, with its testcases, in order; of each testcase whether its generation, its validation and the official solution succeeded *)
  Theorem C89_generations r : print = Some r ->
    map fst (rp_generations r) = sorted_subtasks (ut_subtasks t) /\
    forall st lines s, (st, lines) ∈ rp_generations r -> ut_subtasks t !! st = Some s ->
      Sorted le (map fst lines) /\ NoDup (map fst lines) /\ (forall tc, tc ∈ map fst lines <-> tc ∈ us_owned s) /\
      forall tc said, (tc, said) ∈ lines -> exists g, shown_gen u st tc = Some g /\ Forall2 execution_said [g_generation g; g_validation g; g_solution g] said.
  Proof using Hu.
    intros Hp. pose proof (gens_reachable t u Hu) as Hg. apply full_reachable in Hu.
    assert (H : generations_table t u = Some (rp_generations r)).
    { unfold print_report in Hp. apply bind_Some in Hp as (g & -> & H). case_decide; [by injection H as <-|]. apply bind_Some in H as (e & _ & H).
      apply bind_Some in H as (c & _ & H). apply bind_Some in H as (s & _ & H). by injection H as <-. }
    unfold generations_table in H. split.
    - rewrite (mapM_fst fst _ (fun x => x) _ _ H); [rewrite map_id; apply sorted_dom, Hu|]. intros st y Hy. apply bind_Some in Hy as (g & _ & Hy).
      apply bind_Some in Hy as (s & _ & Hy). apply bind_Some in Hy as (l & _ & Hy). by injection Hy as <-.
    - intros st lines s Hin Hs. apply (mapM_in _ _ _ _ H) in Hin as (st' & _ & Hy). apply bind_Some in Hy as (g & Hst & Hy). apply bind_Some in Hy as (s' & _ & Hy).
      apply bind_Some in Hy as (l & Hl & Hy). injection Hy as -> ->. destruct (Hg st s Hs) as (g' & Hg' & Hd). rewrite Hst in Hg'. injection Hg' as <-.
      assert (Hfst : map fst lines = sorted_subtasks g).
      { rewrite (mapM_fst fst _ (fun x => x) _ _ Hl); [apply map_id|]. intros tc y Hy. apply bind_Some in Hy as (x & _ & Hy). by injection Hy as <-. }
      rewrite Hfst. split; [apply Sorted_merge_sort, _|]. split; [rewrite (sorted_subtasks_perm g); apply NoDup_elements|]. split.
      + intros tc. rewrite in_sorted, <- elem_of_dom, Hd. apply elem_of_list_to_set.
      + intros tc said Htc. apply (mapM_in _ _ _ _ Hl) in Htc as (tc' & _ & Hy). apply bind_Some in Hy as (x & Hx & Hy). injection Hy as -> <-. exists x.
        split; [unfold shown_gen; by rewrite Hst|]. unfold generation_line. cbn [snd map].
        repeat constructor; match goal with |- execution_said ?r _ => destruct r as [[[]]|]; cbn; [..|done]; eexists; (split; [done|]); split; done end.
  Qed.

  (** ** The summary *)
  Lemma print_summary r : print = Some r -> u_evaluations u <> ∅ -> exists hd rows, rp_summary r = Some (hd, rows) /\ summary_table t path_le close u = Some (hd, rows).
  Proof.
    unfold print_report. intros H He. apply bind_Some in H as (g & _ & H). rewrite decide_False in H by done. apply bind_Some in H as (e & _ & H).
    apply bind_Some in H as (c & _ & H). apply bind_Some in H as ([hd rows] & Hs & H). injection H as <-. eauto.
  Qed.
  (** A row for each solution that has been evaluated, in order; a column for each subtask, in order, the same in all the rows; the score of the solution and those of the subtasks *)
  Theorem C89_summary r : print = Some r -> u_evaluations u <> ∅ ->
    exists columns rows, rp_summary r = Some (columns, rows) /\
      Sorted le columns /\ columns ≡ₚ elements (dom (ut_subtasks t)) /\
      map sr_solution rows ≡ₚ elements (dom (u_evaluations u)) /\ (Total path_le -> Sorted path_le (map sr_solution rows)) /\
      Forall (fun row => exists e, u_evaluations u !! sr_solution row = Some e /\ sr_score row = e_score e /\
        map fst (sr_scores row) = columns /\ map (fun c => c.1.1) (sr_letters row) = columns /\
        forall st cell, (st, cell) ∈ sr_scores row -> exists score normalized, e_subtasks e !! st = Some (score, normalized) /\
          (forall v c, cell = Some (v, c) -> score = Some v /\ exists n, normalized = Some n /\ c = score_color n) /\
          (cell = None -> score = None \/ normalized = None)) rows.
  Proof using Hu.
    intros Hp He. destruct (print_summary r Hp He) as (hd & rows & -> & Hs). apply full_reachable in Hu. exists hd, rows.
    destruct (summary_rows t path_le close u hd rows Hs) as (Hhd & Hr & Hrows). split; [done|]. split; [subst hd; apply Sorted_merge_sort, _|].
    split; [subst hd; apply sorted_subtasks_perm|]. rewrite Hr. split; [apply sorted_paths_perm|]. split; [intros Htot; by apply Sorted_merge_sort|].
    eapply Forall_impl; [exact Hrows|]. intros row (e & Hev & Hrow). exists e. split; [done|]. destruct (proj1 Hu _ _ Hev) as [Hd _].
    apply summary_row_ok in Hrow as (H1 & H2 & H3). rewrite (sorted_dom _ _ Hd), <- Hhd in H2, H3. split_and!.
    - done.
    - clear -H2. induction H2 as [|st c l k (x & _ & ->) H IH]; [done|]. simpl. by f_equal.
    - clear -H3. induction H3 as [|st c l k Hc H IH]; [done|]. simpl. f_equal; [|done]. apply letters_ok in Hc as (x & s & _ & _ & Hc & _). by rewrite Hc.
    - intros st cell Hin. apply elem_of_list_lookup in Hin as [i Hi]. destruct (Forall2_lookup_r _ _ _ _ _ H2 Hi) as (st' & _ & x & Hx & Heq). injection Heq as -> ->.
      destruct x as [score normalized]. exists score, normalized. split; [done|]. unfold score_cell. split.
      + intros v c Hc. destruct score, normalized; simplify_eq. eauto.
      + destruct score, normalized; eauto; done.
  Qed.
  (** In each row each testcase of the task is exactly once, in its subtask, with the letter of its outcome *)
  Theorem C89_letters r columns rows row : print = Some r -> rp_summary r = Some (columns, rows) -> row ∈ rows ->
    (sr_letters row ≫= fun c => map fst c.2) ≡ₚ elements (ut_testcases t) /\
    forall st col ls tc l c, (st, col, ls) ∈ sr_letters row -> (tc, (l, c)) ∈ ls ->
      (exists s, ut_subtasks t !! st = Some s /\ tc ∈ us_owned s) /\
      (exists e score normalized, u_evaluations u !! sr_solution row = Some e /\ e_subtasks e !! st = Some (score, normalized) /\ col = score_color (default f64_zero normalized)) /\
      exists x, shown u (sr_solution row) tc = Some x /\ letter_of (t_status x) l /\
        (c = Orange <-> close x = true /\ can_be_close (t_status x)) /\ (c <> Orange -> c = plain_color (t_status x)).
  Proof using Hu Howned.
    intros Hp Hsum Hrow. apply full_reachable in Hu.
    assert (He : u_evaluations u <> ∅).
    { intros He. unfold print_report in Hp. apply bind_Some in Hp as (g & _ & H). rewrite decide_True in H by done. injection H as <-. done. }
    destruct (print_summary r Hp He) as (hd & rows' & Hr & Hs). rewrite Hsum in Hr. injection Hr as <- <-.
    destruct (summary_rows t path_le close u columns rows Hs) as (_ & _ & Hrows).
    destruct (proj1 (Forall_forall _ _) Hrows row Hrow) as (e & Hev & Hro). split; [by eapply row_testcases|].
    intros st col ls tc l c Hin Hl. apply summary_row_ok in Hro as (_ & _ & H3). apply elem_of_list_lookup in Hin as [i Hi].
    destruct (Forall2_lookup_r _ _ _ _ _ H3 Hi) as (st' & _ & Hc). apply letters_ok in Hc as (x & s & Hx0 & Hs' & Heq & Hls). cbn in Heq, Hls. injection Heq as -> ->.
    apply elem_of_list_lookup in Hl as [k Hk]. destruct (Forall2_lookup_r _ _ _ _ _ Hls Hk) as (tc' & Htc & y & Hy & Heq). injection Heq as -> Heq.
    split; [exists s; split; [done|]; by eapply elem_of_list_lookup_2|]. split; [exists e, x.1, x.2; split; [done|]; split; [destruct x; assumption|reflexivity]|]. exists y. split; [unfold shown; by rewrite Hev|].
    revert Heq. unfold testcase_letter. destruct (close y), (t_status y); intros [= -> ->]; (split; [by constructor|]); (split; [unfold can_be_close; split; try done; intros H; naive_solver|]); first [done|intros H; by destruct H].
  Qed.

  (** ** The evaluations: each testcase of the task has exactly one line for each solution, with its outcome *)
  Theorem C89_lines r sol score sts : print = Some r -> (sol, score, sts) ∈ rp_evaluations r ->
    exists e, u_evaluations u !! sol = Some e /\ score = e_score e /\ map (fun x => x.1.1) sts = sorted_subtasks (ut_subtasks t) /\
    (sts ≫= fun x => map tl_testcase x.2) ≡ₚ elements (ut_testcases t) /\
    forall st sc ls line, (st, sc, ls) ∈ sts -> line ∈ ls ->
      (exists normalized, e_subtasks e !! st = Some (sc, normalized)) /\
      exists x, shown u sol (tl_testcase line) = Some x /\ tl_score line = t_score x /\ tl_results line = map (option_map res_resources) (t_results x) /\
        (forall s, s ∈ tl_statuses line <-> (exists r, Some r ∈ t_results x /\ res_status r = s) /\
          ((exists n, s = ReturnCode n) \/ (exists n m, s = Signal n m) \/ (exists m, s = InternalError m))) /\ tl_message line = status_message (t_status x) /\
        (tl_killed line = true <-> exists r, Some r ∈ t_results x /\ res_was_killed r = true) /\
        (tl_cached line = true <-> forall r, Some r ∈ t_results x -> res_was_cached r = true).
  Proof using Hu Howned.
    intros Hp Hin. apply full_reachable in Hu. unfold print_report in Hp. apply bind_Some in Hp as (g & _ & H).
    case_decide as Hd; [injection H as <-; by apply elem_of_nil in Hin|].
    apply bind_Some in H as (es & Hes & H). apply bind_Some in H as (c & _ & H). apply bind_Some in H as (s & _ & H). injection H as <-. cbn in Hin.
    apply (mapM_in _ _ _ _ Hes) in Hin as (sol' & _ & Hx). apply bind_Some in Hx as (e & He & Hx). unfold evaluation_of in Hx. apply bind_Some in Hx as (ls & Hls & Hx).
    injection Hx as <- <- <-. exists e. split; [done|]. split; [done|]. destruct (proj1 Hu _ _ He) as [Hd1 Hd2].
    rewrite (sorted_dom _ _ Hd1) in Hls.
    assert (Hone : forall st y, (x ← e_subtasks e !! st; s0 ← ut_subtasks t !! st; lines ← mapM (fun tc => x0 ← e_testcases e !! tc; Some (testcase_outcome tc x0)) (us_owned s0); Some (st, x.1, lines)) = Some y ->
      y.1.1 = st /\ (exists x, e_subtasks e !! st = Some x /\ y.1.2 = x.1) /\ exists s0, ut_subtasks t !! st = Some s0 /\ mapM (fun tc => x0 ← e_testcases e !! tc; Some (testcase_outcome tc x0)) (us_owned s0) = Some y.2).
    { intros st y Hy. apply bind_Some in Hy as (x & Hx & Hy). apply bind_Some in Hy as (s0 & Hs0 & Hy). apply bind_Some in Hy as (l & Hl & Hy). injection Hy as <-. split; [done|]. split; [by exists x|]. exists s0. done. }
    split; [|split].
    - rewrite (mapM_fst (fun x => x.1.1) _ (fun x => x) _ _ Hls); [apply map_id|]. intros st y Hy. by apply Hone in Hy as [? _].
    - rewrite <- (owned_sorted t Howned). apply mapM_forall2 in Hls. clear -Hls Hone. induction Hls as [|st y l k Hy H IH]; [done|]. rewrite !bind_cons, IH.
      apply Hone in Hy as (_ & _ & s0 & -> & Hl). rewrite (mapM_fst tl_testcase _ (fun x => x) _ _ Hl); [by rewrite map_id|].
      intros tc line Hline. destruct (e_testcases e !! tc); [|done]. by injection Hline as <-.
    - intros st sc l line Hst Hline. apply (mapM_in _ _ _ _ Hls) in Hst as (st' & _ & Hy). apply Hone in Hy as (Hst & (xs & Hxs & Hsc) & s0 & Hs0 & Hl). cbn in Hl, Hst, Hsc. subst st' sc. split; [exists xs.2; rewrite Hxs; by destruct xs|].
      apply (mapM_in _ _ _ _ Hl) in Hline as (tc & _ & Ho). destruct (e_testcases e !! tc) as [x|] eqn:Ex; [|done]. injection Ho as <-. exists x. cbn [testcase_outcome tl_testcase tl_score tl_message tl_killed tl_cached tl_results tl_statuses].
      split; [unfold shown; by rewrite He|]. split; [done|]. split; [done|].
      assert (Hran : forall r, r ∈ ran x <-> Some r ∈ t_results x).
      { intros r. unfold ran. induction (t_results x) as [|[a|] rs IH]; simpl.
        - split; intros H; by apply elem_of_nil in H.
        - rewrite !elem_of_cons, IH. naive_solver.
        - rewrite elem_of_cons, IH. naive_solver. }
      split.
      { intros s1. rewrite elem_of_list_In, List.filter_In, in_map_iff. setoid_rewrite <- elem_of_list_In. setoid_rewrite <- Hran. split.
        - intros [(r & <- & Hr) Ho]. split; [by exists r|]. destruct (res_status r); try done; eauto.
        - intros [(r & Hr & <-) Ho]. split; [by exists r|]. by destruct Ho as [[? ->]|[(? & ? & ->)|[? ->]]]. }
      split; [done|]. split.
      + assert (Hf : forall rs b, foldl (fun b r => b || res_was_killed r) b rs = true <-> b = true \/ exists r, r ∈ rs /\ res_was_killed r = true).
        { induction rs as [|a rs IH]; intros b; simpl; [split; [by left|]; intros [H|(r & H & _)]; [done|by apply elem_of_nil in H]|].
          rewrite IH, orb_true_iff. setoid_rewrite elem_of_cons. naive_solver. }
        rewrite Hf. setoid_rewrite Hran. naive_solver.
      + assert (Hf : forall rs b, foldl (fun b r => b && res_was_cached r) b rs = true <-> b = true /\ forall r, r ∈ rs -> res_was_cached r = true).
        { induction rs as [|a rs IH]; intros b; simpl; [split; [intros H; split; [done|]; intros r Hr; by apply elem_of_nil in Hr|by intros [H _]]|].
          rewrite IH, andb_true_iff. setoid_rewrite elem_of_cons. naive_solver. }
        rewrite Hf. setoid_rewrite Hran. naive_solver.
  Qed.

  (** ** The table of the checks *)
  (** A row for each solution that is not a link; in the column of a subtask what each of its checks that is about that subtask says, in the order of the checks; a question mark if nothing; the columns are aligned *)
  Theorem C89_checks r : print = Some r -> u_evaluations u <> ∅ -> (forall st s, ut_subtasks t !! st = Some s -> is_Some (us_name s)) ->
    exists header lines (width : nat -> nat), rp_checks r = Some (header, lines) /\
      Forall2 (fun st name => exists s, ut_subtasks t !! st = Some s /\ us_name s = Some name) (sorted_subtasks (ut_subtasks t)) header /\
      map fst lines = List.filter (fun p => negb (is_symlink p)) (sorted_paths path_le (u_solutions u)) /\
      forall sol cells info, (sol, cells) ∈ lines -> u_solutions u !! sol = Some info ->
        Forall2 (fun st cell =>
          let said := si_checks info ≫= expected_check t wild u sol st in
          match cell with
          | None => said = []
          | Some c => said <> [] /\ cc_checks c = said /\ (cell_len said + cc_spaces c)%nat = width st
          end) (sorted_subtasks (ut_subtasks t)) cells.
  Proof using Hu Ht Horder Hsols.
    intros Hp He Hn. apply full_reachable in Hu. unfold print_report in Hp. apply bind_Some in Hp as (g & _ & H). rewrite decide_False in H by done.
    apply bind_Some in H as (e & _ & H). rewrite (proj2 all_named_spec Hn) in H. apply bind_Some in H as (c & Hc & H). apply bind_Some in H as (s & _ & H). injection H as <-.
    apply bind_Some in Hc as ([header lines] & Hc & Heq). injection Heq as <-.
    destruct (table_ok t path_le order wild is_symlink name_len u sols sol_len Hu Ht Horder Hsols header lines Hc) as (H1 & H2 & width & H3).
    exists header, lines, width. split_and!; [done..|]. intros sol cells info Hin Hinfo.
    pose proof (proj1 (Forall_forall _ _) H3 _ Hin info Hinfo) as H. cbn in H. eapply Forall2_impl; [exact H|]. intros st [c|]; cbn; [|done].
    intros (Ha & Hb & Hw). rewrite <- Hb. done.
  Qed.
End report.

(** ** The messages *)
(** The message of the checker if there is one; otherwise a message that is not empty and that is different for different outcomes *)
Theorem C89_messages : (forall s m, checker_message s = Some m -> m <> ""%string -> status_message s = m) /\
  (forall s, status_message s <> ""%string) /\
  (forall s s', default ""%string (checker_message s) = ""%string -> default ""%string (checker_message s') = ""%string -> status_message s = status_message s' -> s = s').
Proof.
  split_and!.
  - intros [] m [= ->] Hm; cbn; by rewrite decide_False.
  - intros []; cbn; try done; case_decide; done.
  - intros [] []; cbn; intros H H'; subst; try done.
Qed.

(** ** A testcase that has not been executed is said to come from the cache *)
Definition ex_task : ui_task := UiTask {[ 0%nat := UiSubtask (Some (chars "st")) [0%nat] [0%nat] ]} {[ 0%nat ]}.
Definition ex_messages : list ui_message := [MSolutions [SolInfo "sol.py" [SolCheck KZero (chars "st") 1]]; MEvaluation 0 0 "sol.py" USkipped 0 1].
Definition ex_le : relation path := fun a b => String.leb a b = true.
#[global] Instance ex_le_dec : RelDecision ex_le.
Proof. intros a b. unfold ex_le. apply _. Defined.
Definition ex_print (ms : list ui_message) : option report :=
  u ← ui_run ex_task ms (new_ui_state ex_task);
  print_report ex_task ex_le (fun _ => false) [0%nat] (fun _ _ => true) (fun _ => false) (fun _ => 2%nat) (map_to_list (u_solutions u)) (fun _ => 6%nat) u.
Theorem C89_cache_refuted : exists t u sol tc x, reachable t u /\ owned_once t /\ shown u sol tc = Some x /\ (forall r, Some r ∉ t_results x) /\
  tl_message (testcase_outcome tc x) = "Execution skipped"%string /\ tl_cached (testcase_outcome tc x) = true.
Proof.
  exists ex_task. destruct (ui_run ex_task ex_messages (new_ui_state ex_task)) as [u|] eqn:E; [|by vm_compute in E].
  exists u, "sol.py"%string, 0%nat. exists (TcState None ESkipped [None] None).
  split; [by exists ex_messages|]. split; [vm_compute; reflexivity|]. split; [|split; [|done]].
  - assert (H : (u ← ui_run ex_task ex_messages (new_ui_state ex_task); shown u "sol.py" 0) = Some (TcState None ESkipped [None] None)) by (vm_compute; reflexivity).
    by rewrite E in H.
  - intros r Hr. cbn in Hr. apply elem_of_cons in Hr as [Hr|Hr]; [done|by apply elem_of_nil in Hr].
Qed.
(** The hypotheses are met and the report is what it should be *)
Theorem C89_example : reachable ex_task (new_ui_state ex_task) /\ owned_once ex_task /\ testcases_exist ex_task /\ numbered ex_task /\ each_subtask ex_task [0%nat] /\
  (rp_summary <$> ex_print ex_messages) = Some (Some ([0%nat], [SummaryRow "sol.py" None [(0%nat, None)] [(0%nat, Red, [(0%nat, (LS, Bold))])]])) /\
  (rp_checks <$> ex_print ex_messages) = Some (Some ([chars "st"], [("sol.py"%string, [None])])) /\
  (rp_checks <$> ex_print (ex_messages ++ [MEvaluation 0 0 "sol.py" (UStarted 0) 0 1; MTestcaseScore 0 0 "sol.py" f64_zero ""])) =
    Some (Some ([chars "st"], [("sol.py"%string, [Some (CheckCell [(KZero, true)] 0)])])).
Proof.
  split; [by exists []|]. split; [vm_compute; reflexivity|]. split.
  { intros st s tc H Hin. unfold ex_task in H. cbn in H. apply lookup_singleton_Some in H as [<- <-]. cbn in *. apply elem_of_singleton. by apply elem_of_list_singleton in Hin. }
  split. { intros st [s H]. unfold ex_task in H. cbn in H. apply lookup_singleton_Some in H as [<- <-]. unfold ex_task. cbn. rewrite map_size_singleton. lia. }
  split; [vm_compute; reflexivity|]. split_and!; vm_compute; reflexivity.
Qed.
Print Assumptions C89_no_panic.
Print Assumptions C89_gap_refuted.
Print Assumptions C89_generations.
Print Assumptions C89_summary.
Print Assumptions C89_letters.
Print Assumptions C89_lines.
Print Assumptions C89_messages.
Print Assumptions C89_checks.
Print Assumptions C89_cache_refuted.
