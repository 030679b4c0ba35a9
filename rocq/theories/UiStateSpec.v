(** * UiStateSpec: vocabulary of property C55 *)
From Verif Require Export UiStateModel.

(** What is shown of a testcase of a solution, and of the generation of a testcase *)
Definition shown (u : ui_state) (sol : path) (tc : nat) : option tc_state := e ← u_evaluations u !! sol; e_testcases e !! tc.
Definition shown_gen (u : ui_state) (st tc : nat) : option gen_state := g ← u_generations u !! st; g !! tc.
(** The messages about a testcase of a solution *)
Definition about (sol : path) (tc : nat) (m : ui_message) : bool :=
  match m with
  | MEvaluation _ tc' sol' _ _ _ => bool_decide (sol' = sol /\ tc' = tc)
  | MChecker _ tc' sol' _ => bool_decide (sol' = sol /\ tc' = tc)
  | MTestcaseScore _ tc' sol' _ _ => bool_decide (sol' = sol /\ tc' = tc)
  | _ => false
  end.
(** The messages about the generation of a testcase in a subtask *)
Definition about_gen (st tc : nat) (m : ui_message) : bool :=
  match m with
  | MGeneration st' tc' _ | MValidation st' tc' _ | MSolution st' tc' _ => bool_decide (st' = st /\ tc' = tc)
  | _ => false
  end.

(** A message about something that exists *)
Definition message_ok (t : ui_task) (m : ui_message) : Prop :=
  match m with
  | MGeneration st tc _ | MSolution st tc _ => exists s, ut_subtasks t !! st = Some s /\ tc ∈ us_owned s
  | MValidation st _ _ => is_Some (ut_subtasks t !! st)
  | MEvaluation _ tc _ _ part num_parts => tc ∈ ut_testcases t /\ part < num_parts
  | MChecker _ tc _ _ => tc ∈ ut_testcases t
  | MTestcaseScore _ tc _ _ _ => tc ∈ ut_testcases t
  | MSubtaskScore st _ _ _ => is_Some (ut_subtasks t !! st)
  | MBookletDep _ _ step num_steps _ => step < num_steps
  | MTerry => False
  | _ => True
  end.
(** The messages about a dependency of a booklet agree on the number of its steps. *)
Definition steps_agree (ms : list ui_message) : Prop :=
  forall b name s1 n1 x1 s2 n2 x2, MBookletDep b name s1 n1 x1 ∈ ms -> MBookletDep b name s2 n2 x2 ∈ ms -> n1 = n2.

(** What can be heard about a testcase of a batch task: an execution ends at most once and does not start after it ended;
    the checker needs the output of the solution. *)
Definition ended (l : list tc_event) : Prop := exists e, OnSolution e ∈ l /\ (e = XSkipped \/ exists r, e = XDone r).
Definition succeeded (l : list tc_event) : Prop := exists r, OnSolution (XDone r) ∈ l /\ res_status r = Success.
Definition checked (l : list tc_event) : Prop := exists r, OnChecker (XDone r) ∈ l.
Definition legal (l : list tc_event) : Prop :=
  forall l1 e l2, l = l1 ++ e :: l2 ->
    match e with
    | OnSolution _ => ~ ended l1
    | OnChecker XSkipped => True
    | OnChecker _ => succeeded l1 /\ ~ checked l1
    end.
Section outcome.
  Context (parse : list N -> option f64) (totext : list N -> string).
  (** The outcome an execution that failed stands for *)
  Inductive failure : status -> eval_status -> Prop :=
    | fail_code c : failure (ReturnCode c) ERuntimeError
    | fail_signal n s : failure (Signal n s) ERuntimeError
    | fail_time : failure TimeLimitExceeded ETimeLimit
    | fail_sys_time : failure SysTimeLimitExceeded ETimeLimit
    | fail_wall : failure WallTimeLimitExceeded EWallTime
    | fail_memory : failure MemoryLimitExceeded EMemory
    | fail_internal m : failure (InternalError m) EFailed.
  (** The outcome a score stands for *)
  Inductive score_outcome (v : f64) (msg : string) : eval_status -> Prop :=
    | out_wrong : f64_eq v f64_zero = true -> score_outcome v msg (EWrongAnswer msg)
    | out_accepted : f64_eq v f64_zero = false -> f64_lt (f64_abs (f64_sub v f64_one)) f64_thousandth = true -> score_outcome v msg (EAccepted msg)
    | out_partial : f64_eq v f64_zero = false -> f64_lt (f64_abs (f64_sub v f64_one)) f64_thousandth = false -> score_outcome v msg (EPartial msg).
  (** What is to be shown, after [l] was heard *)
  Inductive outcome_of (c : checker) (l : list tc_event) : eval_status -> Prop :=
    | of_skipped : OnSolution XSkipped ∈ l -> outcome_of c l ESkipped
    | of_failed r s : OnSolution (XDone r) ∈ l -> failure (res_status r) s -> outcome_of c l s
    | of_score r v msg s : OnChecker (XDone r) ∈ l -> checker_answer parse totext c r = Some (Some (v, msg)) ->
        score_outcome v msg s -> outcome_of c l s
    | of_checking w : OnChecker (XStarted w) ∈ l -> (forall r, OnChecker (XDone r) ∈ l -> checker_answer parse totext c r = Some None) ->
        outcome_of c l EChecking
    | of_solved : succeeded l -> (forall w, OnChecker (XStarted w) ∉ l) ->
        (forall r, OnChecker (XDone r) ∈ l -> checker_answer parse totext c r = Some None) -> outcome_of c l ESolved
    | of_solving w : OnSolution (XStarted w) ∈ l -> ~ ended l -> outcome_of c l ESolving
    | of_pending : (forall w, OnSolution (XStarted w) ∉ l) -> ~ ended l -> outcome_of c l EPending.
  (** The results that are to be kept: of the solution, of the checker, and the score *)
  Definition recorded (c : checker) (l : list tc_event) (x : tc_state) : Prop :=
    (forall r, OnSolution (XDone r) ∈ l -> t_results x = [Some r]) /\
    ((forall r, OnSolution (XDone r) ∉ l) -> t_results x = [None]) /\
    (forall r, t_checker x = Some r <-> OnChecker (XDone r) ∈ l) /\
    (forall v, t_score x = Some v <->
      (exists r, OnSolution (XDone r) ∈ l /\ res_status r <> Success /\ v = f64_zero) \/
      (exists r msg, OnChecker (XDone r) ∈ l /\ checker_answer parse totext c r = Some (Some (v, msg)))).
End outcome.

(** The generation of a testcase (generator, validator, official solution, in this order): every execution ends at most once and
    does not start after it ended; before it only what comes before it was heard, or what comes after it was skipped (because of its
    compilation); it does not start or end, unless it is skipped, after something before it failed or was skipped. *)
Definition stage (e : gen_event) : nat := match e with OnGenerator _ => 0 | OnValidator _ => 1 | OnOfficial _ => 2 end.
Definition event_of (e : gen_event) : exec_event := match e with OnGenerator e | OnValidator e | OnOfficial e => e end.
Definition ends (e : exec_event) : Prop := e = XSkipped \/ exists r, e = XDone r.
Definition bad_end (e : exec_event) : Prop := e = XSkipped \/ exists r, e = XDone r /\ res_status r <> Success.
Definition legal_gen (l : list gen_event) : Prop :=
  forall l1 e l2, l = l1 ++ e :: l2 -> forall e', e' ∈ l1 ->
    (stage e' = stage e -> ~ ends (event_of e')) /\
    (stage e < stage e' -> event_of e' = XSkipped) /\
    (stage e' < stage e -> event_of e <> XSkipped -> ~ bad_end (event_of e')).
Definition gen_started (i : nat) : gen_status := match i with 0 => GGenerating | 1 => GValidating | _ => GSolving end.
Definition gen_ended (i : nat) : gen_status := match i with 0 => GGenerated | 1 => GValidated | _ => GSolved end.
(** What is to be shown: a failure, if there is one, else what was heard last *)
Definition gen_fails (l : list gen_event) : Prop := exists e r, e ∈ l /\ event_of e = XDone r /\ res_status r <> Success.
Inductive gen_outcome : list gen_event -> gen_status -> Prop :=
  | gen_failed l : gen_fails l -> gen_outcome l GFailed
  | gen_skipped l e : ~ gen_fails (l ++ [e]) -> event_of e = XSkipped -> gen_outcome (l ++ [e]) GSkipped
  | gen_running l e w : ~ gen_fails (l ++ [e]) -> event_of e = XStarted w -> gen_outcome (l ++ [e]) (gen_started (stage e))
  | gen_done l e r : ~ gen_fails (l ++ [e]) -> event_of e = XDone r -> gen_outcome (l ++ [e]) (gen_ended (stage e))
  | gen_pending : gen_outcome [] GPending.

(** A run of the group of a communication task that was completed: [n] processes and the manager; the executions of a group are
    started together, and all of their results come after that, in any order. *)
Definition is_start (e : comm_event) : Prop := exists w, e = OnManager (XStarted w) \/ exists i, e = OnProcess i (XStarted w).
Definition comm_complete (n : nat) (results : list exec_result) (manager : exec_result) (starts ends : list comm_event) : Prop :=
  length results = n /\ Forall is_start starts /\ (forall i w, OnProcess i (XStarted w) ∈ starts -> i < n) /\
  ends ≡ₚ OnManager (XDone manager) :: imap (fun i r => OnProcess i (XDone r)) results.
(** The status of the process heard last *)
Definition last_process (ends : list comm_event) (r : exec_result) : Prop :=
  exists l1 i l2, ends = l1 ++ OnProcess i (XDone r) :: l2 /\ forall j r', OnProcess j (XDone r') ∉ l2.
(** The same as in ScoreModel (C41): a process or the manager is done *)
Definition to_group (e : comm_event) : option group_event :=
  match e with OnProcess _ (XDone r) => Some (ProcessDone (res_status r)) | OnManager (XDone r) => Some (ManagerDone r) | _ => None end.

(** The outcome of a testcase, as the checks of the solutions see it *)
Inductive reported : eval_status -> outcome -> Prop :=
  | rep_accepted m : reported (EAccepted m) OAccepted
  | rep_partial m : reported (EPartial m) OPartial
  | rep_wrong m : reported (EWrongAnswer m) OWrongAnswer
  | rep_time : reported ETimeLimit OTimeLimit
  | rep_wall : reported EWallTime OWallTime
  | rep_memory : reported EMemory OMemory
  | rep_runtime : reported ERuntimeError ORuntimeError.
