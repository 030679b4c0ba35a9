(** * TerryUiSpec: vocabulary of property C71 *)
From Verif Require Export TerryUiModel UiStateSpec.

(** A message is about a solution *)
Definition t_about (sol : path) (m : t_message) : bool :=
  match m with
  | TMGeneration s _ _ | TMValidation s _ | TMSolution s _ | TMChecker s _ | TMOutcome s _ => bool_decide (s = sol)
  | _ => false
  end.
(** What may be sent after the list [sols] of the solutions was: no other list, nothing about other solutions or other formats *)
Definition t_message_ok (sols : list path) (m : t_message) : Prop :=
  match m with
  | TMGeneration s _ _ | TMValidation s _ | TMSolution s _ | TMChecker s _ | TMOutcome s _ => s ∈ sols
  | TMSolutions _ | TMIOI => False
  | _ => True
  end.
(** A session: the task, the list of the solutions, then messages about them *)
Definition session (sols : list path) (ms : list t_message) : list t_message := [TMTask; TMSolutions sols] ++ ms.

(** What can be heard about a solution.  Its executions are a chain: generator, validator, solution, checker; the same
    rules as for the generation of a testcase ([UiStateSpec.legal_gen]): an execution ends at most once and does not
    start after it ended; before it only what comes before it was heard, or that what comes after it was skipped (because
    of a compilation); it does not start or end, unless it is skipped, after something before it failed or was skipped. *)
Definition stage_no (st : t_stage) : nat := match st with StGenerator => 0 | StValidator => 1 | StSolution => 2 | StChecker => 3 end.
Definition t_legal (l : list (t_stage * exec_event)) : Prop :=
  forall l1 st e l2, l = l1 ++ (st, e) :: l2 -> forall st' e', (st', e') ∈ l1 ->
    (st' = st -> ~ ends e') /\
    (stage_no st < stage_no st' -> e' = XSkipped) /\
    (stage_no st' < stage_no st -> e <> XSkipped -> ~ bad_end e').

Definition stage_name (st : t_stage) : string :=
  match st with StGenerator => "Generator" | StValidator => "Validator" | StSolution => "Solution" | StChecker => "Checker" end.
Definition t_started (st : t_stage) : terry_status :=
  match st with StGenerator => TGenerating | StValidator => TValidating | StSolution => TSolving | StChecker => TChecking end.
Definition t_ended (st : t_stage) : terry_status :=
  match st with StGenerator => TGenerated | StValidator => TValidated | StSolution => TSolved | StChecker => TDone end.
(** The execution of this stage failed *)
Definition stage_failed (l : list (t_stage * exec_event)) (st : t_stage) : Prop := exists r, (st, XDone r) ∈ l /\ res_status r <> Success.
(** What is to be shown: the stage that failed, if there is one, else what was heard last *)
Inductive t_shown : list (t_stage * exec_event) -> terry_status -> Prop :=
  | shown_failed l st : stage_failed l st -> t_shown l (TFailed (stage_name st +:+ " failed"))
  | shown_skipped l st : (forall st', ~ stage_failed (l ++ [(st, XSkipped)]) st') -> t_shown (l ++ [(st, XSkipped)]) TSkipped
  | shown_running l st w : (forall st', ~ stage_failed (l ++ [(st, XStarted w)]) st') -> t_shown (l ++ [(st, XStarted w)]) (t_started st)
  | shown_done l st r : (forall st', ~ stage_failed (l ++ [(st, XDone r)]) st') -> t_shown (l ++ [(st, XDone r)]) (t_ended st)
  | shown_pending : t_shown [] TPending.
(** The results that are kept *)
Definition result_of (st : t_stage) (s : t_state) : option exec_result :=
  match st with StGenerator => ts_generator s | StValidator => ts_validator s | StSolution => ts_solution s | StChecker => ts_checker s end.
(** What the checker said *)
Definition said (parse : list N -> sol_outcome + string) (out : list N) (o : sol_outcome + string) : Prop :=
  match parse out with inl x => o = inl x | inr e => o = inr ("Invalid checker outcome: " +:+ e) end.
(** What is to be known of a solution about which [l] was heard: its status, the results of its executions, what the checker printed *)
Definition t_shows (parse : list N -> sol_outcome + string) (l : list (t_stage * exec_event)) (x : t_state) : Prop :=
  t_shown l (ts_status x) /\ (forall st r, result_of st x = Some r <-> (st, XDone r) ∈ l) /\
  (forall o, ts_outcome x = Some o <-> exists r out, (StChecker, XDone r) ∈ l /\ res_stdout r = Some out /\ said parse out o).
