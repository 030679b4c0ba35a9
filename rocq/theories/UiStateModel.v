(** * UiStateModel: task-maker-format/src/ioi/ui_state.rs, ui/mod.rs (CompilationStatus), and the messages sent to the UI
      by the executions of a testcase (lib.rs [bind_exec_callbacks], ioi/dag/checker.rs, ioi/dag/task_type/batch.rs,
      communication.rs, ioi/dag/input_generator.rs, input_validator.rs, output_generator.rs)

    Definitions only.  A panic ([expect], an index out of bounds, [unreachable!]) is [None].  Simplifications: paths and
    names are strings; the id of a subtask (testcase) is its key in the maps of the task; a diagnostic is a string; the
    status of the executor is a number; the messages of Terry are one constructor; the maximum score, the task and the
    configuration, which are never changed, are not in the state. *)
From stdpp Require Export gmap strings.
From Verif Require Export ScoreModel ChecksModel.

Notation path := string (only parsing).

(** ui/mod.rs:115-132 [UIExecutionStatus] *)
Inductive ui_status := UPending | UStarted (worker : nat) | UDone (r : exec_result) | USkipped.

(** ui_state.rs:13-34 [TestcaseGenerationStatus] *)
Inductive gen_status := GPending | GGenerating | GGenerated | GValidating | GValidated | GSolving | GSolved | GFailed | GSkipped.
Global Instance gen_status_eq_dec : EqDecision gen_status.
Proof. solve_decision. Defined.
(** ui_state.rs:36-65 [TestcaseEvaluationStatus] *)
Inductive eval_status :=
  | EPending | ESolving | ESolved | EChecking
  | EAccepted (msg : string) | EWrongAnswer (msg : string) | EPartial (msg : string)
  | ETimeLimit | EWallTime | EMemory | ERuntimeError | EFailed | ESkipped.
Global Instance eval_status_eq_dec : EqDecision eval_status.
Proof. solve_decision. Defined.
(** ui_state.rs:67-83: [From<&TestcaseEvaluationStatus> for Option<TestcaseEvaluationResult>] *)
Definition eval_result (s : eval_status) : option outcome :=
  match s with
  | EAccepted _ => Some OAccepted
  | EPartial _ => Some OPartial
  | EWrongAnswer _ => Some OWrongAnswer
  | ETimeLimit => Some OTimeLimit
  | EWallTime => Some OWallTime
  | EMemory => Some OMemory
  | ERuntimeError => Some ORuntimeError
  | _ => None
  end.
(** ui_state.rs:256-266 [has_completed] *)
Definition has_completed (s : eval_status) : bool :=
  match s with EPending | ESolving | ESolved | EChecking => false | _ => true end.

(** ui_state.rs:85-96 [TestcaseGenerationState] *)
Record gen_state := GenState {
  g_status : gen_status;
  g_generation : option exec_result;
  g_validation : option exec_result;
  g_solution : option exec_result
}.
(** ui_state.rs:105-116 [SolutionTestcaseEvaluationState] *)
Record tc_state := TcState {
  t_score : option f64;
  t_status : eval_status;
  t_results : list (option exec_result);
  t_checker : option exec_result
}.
(** ui_state.rs:160-178 [SolutionSubtaskEvaluationState] (score, normalized score), [SolutionEvaluationState] *)
Record sol_state := SolState {
  e_score : option f64;
  e_subtasks : gmap nat (option f64 * option f64);
  e_testcases : gmap nat tc_state
}.
(** ui/mod.rs:134-162 [CompilationStatus]; the text of the outputs is a function of the result *)
Inductive comp_status := CPending | CRunning | CDone (r : exec_result) | CFailed (r : exec_result) | CSkipped.
(** ui_state.rs:213-227 [BookletState]; a dependency is the list of the statuses of its steps *)
Record booklet_state := BookletState { bk_status : ui_status; bk_deps : gmap string (list ui_status) }.
(** solution.rs:54-65 [SolutionInfo] *)
Record sol_info := SolInfo { si_path : path; si_checks : list sol_check }.
(** What is used of the task: ioi/mod.rs:127-129, 157-181 *)
Record ui_subtask := UiSubtask { us_name : option text; us_owned : list nat; us_testcases : list nat }.
Record ui_task := UiTask { ut_subtasks : gmap nat ui_subtask; ut_testcases : gset nat }.
(** ui_state.rs:229-252 [UIState] *)
Record ui_state := UiState {
  u_solutions : gmap path sol_info;
  u_compilations : gmap path comp_status;
  u_generations : gmap nat (gmap nat gen_state);
  u_evaluations : gmap path sol_state;
  u_executor : option nat;
  u_booklets : gmap string booklet_state;
  u_diagnostics : list string
}.
(** ui_state.rs:190-211 [SolutionEvaluationState::new] *)
Definition new_tc_state : tc_state := TcState None EPending [] None.
Definition new_sol_state (t : ui_task) : sol_state :=
  SolState None ((fun _ => (None, None)) <$> ut_subtasks t) (gset_to_gmap new_tc_state (ut_testcases t)).
(** ui_state.rs:332-370 [UIState::new] *)
Definition new_gen_state : gen_state := GenState GPending None None None.
Definition new_ui_state (t : ui_task) : ui_state :=
  UiState ∅ ∅ ((fun st => gset_to_gmap new_gen_state (list_to_set (us_owned st))) <$> ut_subtasks t) ∅ None ∅ [].

(** ui/ui_message.rs: the messages *)
Inductive ui_message :=
  | MStopUI
  | MServerStatus (s : nat)
  | MSolutions (l : list sol_info)
  | MCompilation (file : path) (s : ui_status)
  | MTask
  | MGeneration (st tc : nat) (s : ui_status)
  | MValidation (st tc : nat) (s : ui_status)
  | MSolution (st tc : nat) (s : ui_status)
  | MEvaluation (st tc : nat) (sol : path) (s : ui_status) (part num_parts : nat)
  | MChecker (st tc : nat) (sol : path) (s : ui_status)
  | MTestcaseScore (st tc : nat) (sol : path) (score : f64) (msg : string)
  | MSubtaskScore (st : nat) (sol : path) (score normalized : f64)
  | MTaskScore (sol : path) (score : f64)
  | MBooklet (name : string) (s : ui_status)
  | MBookletDep (booklet name : string) (step num_steps : nat) (s : ui_status)
  | MDiagnostic (d : string)
  | MTerry.

(** ui/mod.rs:164-193 [CompilationStatus::apply_status] *)
Definition comp_apply (s : ui_status) : comp_status :=
  match s with
  | UPending => CPending
  | UStarted _ => CRunning
  | UDone r => if is_success (res_status r) then CDone r else CFailed r
  | USkipped => CSkipped
  end.
(** ui_state.rs:437-466, the part after the lookup *)
Definition gen_apply_generation (s : ui_status) (g : gen_state) : gen_state :=
  match s with
  | UPending => GenState GPending (g_generation g) (g_validation g) (g_solution g)
  | UStarted _ => GenState GGenerating (g_generation g) (g_validation g) (g_solution g)
  | UDone r => GenState (if is_success (res_status r) then GGenerated else GFailed) (Some r) (g_validation g) (g_solution g)
  | USkipped => GenState GSkipped (g_generation g) (g_validation g) (g_solution g)
  end.
Definition skip_unless_failed (s : gen_status) : gen_status := match s with GFailed => GFailed | _ => GSkipped end.
(** ui_state.rs:467-503 *)
Definition gen_apply_validation (s : ui_status) (g : gen_state) : gen_state :=
  match s with
  | UPending => GenState GPending (g_generation g) (g_validation g) (g_solution g)
  | UStarted _ => GenState GValidating (g_generation g) (g_validation g) (g_solution g)
  | UDone r => GenState (if is_success (res_status r) then GValidated else GFailed) (g_generation g) (Some r) (g_solution g)
  | USkipped => GenState (skip_unless_failed (g_status g)) (g_generation g) (g_validation g) (g_solution g)
  end.
(** ui_state.rs:504-538 *)
Definition gen_apply_solution (s : ui_status) (g : gen_state) : gen_state :=
  match s with
  | UPending => GenState GPending (g_generation g) (g_validation g) (g_solution g)
  | UStarted _ => GenState GSolving (g_generation g) (g_validation g) (g_solution g)
  | UDone r => GenState (if is_success (res_status r) then GSolved else GFailed) (g_generation g) (g_validation g) (Some r)
  | USkipped => GenState (skip_unless_failed (g_status g)) (g_generation g) (g_validation g) (g_solution g)
  end.
(** ui_state.rs:560-586: the status of an execution that is done *)
Definition done_status (s : status) : eval_status :=
  match s with
  | Success => ESolved
  | ReturnCode _ => ERuntimeError
  | Signal _ _ => ERuntimeError
  | TimeLimitExceeded => ETimeLimit
  | SysTimeLimitExceeded => ETimeLimit
  | WallTimeLimitExceeded => EWallTime
  | MemoryLimitExceeded => EMemory
  | InternalError _ => EFailed
  end.
(** ui_state.rs:552-593, the part after the lookup *)
Definition tc_apply_evaluation (s : ui_status) (part num_parts : nat) (t : tc_state) : option tc_state :=
  let results := if decide (length (t_results t) = num_parts) then t_results t else replicate num_parts None in
  match s with
  | UPending => Some (TcState (t_score t) (t_status t) results (t_checker t))
  | UStarted _ => Some (TcState (t_score t) ESolving results (t_checker t))
  | UDone r =>
    if decide (part < length results)
    then Some (TcState (t_score t) (done_status (res_status r)) (<[part := Some r]> results) (t_checker t))
    else None
  | USkipped => Some (TcState (t_score t) ESkipped results (t_checker t))
  end.
(** ui_state.rs:607-615 *)
Definition tc_apply_checker (s : ui_status) (t : tc_state) : tc_state :=
  match s with
  | UStarted _ => TcState (t_score t) EChecking (t_results t) (t_checker t)
  | UDone r => TcState (t_score t) (t_status t) (t_results t) (Some r)
  | _ => t
  end.
(** ui_state.rs:630-637 *)
Definition score_eval_status (score : f64) (msg : string) : eval_status :=
  match from_score score f64_one with
  | StWrongAnswer => EWrongAnswer msg
  | StAccepted => EAccepted msg
  | StPartialScore => EPartial msg
  end.
Definition tc_apply_score (score : f64) (msg : string) (t : tc_state) : tc_state :=
  TcState (Some score) (if has_completed (t_status t) then t_status t else score_eval_status score msg) (t_results t) (t_checker t).

Section apply.
  Context (t : ui_task).

  (** [self.generations.get_mut(&subtask).expect(..).testcases.get_mut(&testcase)]; [strict]: the second [expect] *)
  Definition on_generation (strict : bool) (st tc : nat) (f : gen_state -> gen_state) (u : ui_state) : option ui_state :=
    tcs ← u_generations u !! st;
    match tcs !! tc with
    | Some g => Some (UiState (u_solutions u) (u_compilations u) (<[st := <[tc := f g]> tcs]> (u_generations u)) (u_evaluations u)
                        (u_executor u) (u_booklets u) (u_diagnostics u))
    | None => if strict then None else Some u
    end.
  (** [self.evaluations.entry(solution).or_insert_with(..)] *)
  Definition the_eval (sol : path) (u : ui_state) : sol_state := default (new_sol_state t) (u_evaluations u !! sol).
  Definition set_eval (sol : path) (e : sol_state) (u : ui_state) : ui_state :=
    UiState (u_solutions u) (u_compilations u) (u_generations u) (<[sol := e]> (u_evaluations u)) (u_executor u) (u_booklets u) (u_diagnostics u).
  (** ... [eval.testcases.get_mut(&testcase).expect("Missing testcase")] *)
  Definition on_testcase (sol : path) (tc : nat) (f : tc_state -> option tc_state) (u : ui_state) : option ui_state :=
    let e := the_eval sol u in
    x ← e_testcases e !! tc;
    x ← f x;
    Some (set_eval sol (SolState (e_score e) (e_subtasks e) (<[tc := x]> (e_testcases e))) u).
  (** [self.booklets.entry(name).or_insert_with(..)] *)
  Definition the_booklet (name : string) (u : ui_state) : booklet_state := default (BookletState UPending ∅) (u_booklets u !! name).
  Definition set_booklet (name : string) (b : booklet_state) (u : ui_state) : ui_state :=
    UiState (u_solutions u) (u_compilations u) (u_generations u) (u_evaluations u) (u_executor u) (<[name := b]> (u_booklets u)) (u_diagnostics u).

  (** ui_state.rs:417-700 [UIState::apply] *)
  Definition ui_apply (m : ui_message) (u : ui_state) : option ui_state :=
    match m with
    | MStopUI => Some u
    | MServerStatus s =>
      Some (UiState (u_solutions u) (u_compilations u) (u_generations u) (u_evaluations u) (Some s) (u_booklets u) (u_diagnostics u))
    | MSolutions l =>
      (* [collect] on a map: the last one wins *)
      Some (UiState (foldl (fun m i => <[si_path i := i]> m) ∅ l) (u_compilations u) (u_generations u) (u_evaluations u)
              (u_executor u) (u_booklets u) (u_diagnostics u))
    | MCompilation file s =>
      Some (UiState (u_solutions u) (<[file := comp_apply s]> (u_compilations u)) (u_generations u) (u_evaluations u)
              (u_executor u) (u_booklets u) (u_diagnostics u))
    | MTask => Some u
    | MGeneration st tc s => on_generation true st tc (gen_apply_generation s) u
    | MValidation st tc s => on_generation false st tc (gen_apply_validation s) u
    | MSolution st tc s => on_generation true st tc (gen_apply_solution s) u
    | MEvaluation _ tc sol s part num_parts => on_testcase sol tc (tc_apply_evaluation s part num_parts) u
    | MChecker _ tc sol s => on_testcase sol tc (fun x => Some (tc_apply_checker s x)) u
    | MTestcaseScore _ tc sol score msg => on_testcase sol tc (fun x => Some (tc_apply_score score msg x)) u
    | MSubtaskScore st sol score normalized =>
      let e := the_eval sol u in
      _ ← e_subtasks e !! st;
      Some (set_eval sol (SolState (e_score e) (<[st := (Some score, Some normalized)]> (e_subtasks e)) (e_testcases e)) u)
    | MTaskScore sol score =>
      let e := the_eval sol u in
      Some (set_eval sol (SolState (Some score) (e_subtasks e) (e_testcases e)) u)
    | MBooklet name s => Some (set_booklet name (BookletState s (bk_deps (the_booklet name u))) u)
    | MBookletDep booklet name step num_steps s =>
      let b := the_booklet booklet u in
      let steps := default (replicate num_steps UPending) (bk_deps b !! name) in
      if decide (step < length steps)
      then Some (set_booklet booklet (BookletState (bk_status b) (<[name := <[step := s]> steps]> (bk_deps b))) u)
      else None
    | MDiagnostic d =>
      Some (UiState (u_solutions u) (u_compilations u) (u_generations u) (u_evaluations u) (u_executor u) (u_booklets u) (u_diagnostics u ++ [d]))
    | MTerry => None
    end.
  Fixpoint ui_run (ms : list ui_message) (u : ui_state) : option ui_state :=
    match ms with
    | [] => Some u
    | m :: ms => u ← ui_apply m u; ui_run ms u
    end.

  (** ioi/mod.rs:523-545 [find_subtasks_by_pattern_name]; [order]: the subtasks in the iteration order of the map;
      [wild]: whether a (normalized) pattern matches a name *)
  Context (order : list nat) (wild : text -> text -> bool).
  Definition matching_subtasks (pattern : text) : list nat :=
    List.filter (fun st => match ut_subtasks t !! st with
                           | Some s => match us_name s with Some name => wild pattern name | None => false end
                           | None => false
                           end) order.
  (** ui_state.rs:317-327 [SolutionCheckOutcome] *)
  Record check_outcome := CheckOutcome { co_solution : path; co_check : sol_check; co_subtask : nat; co_success : bool }.
  (** The inner loop of ui_state.rs:382-405 for a subtask: [None] a panic, [Some None] the [continue] *)
  Definition check_subtask (u : ui_state) (sol : path) (c : sol_check) (st : nat) : option (option check_outcome) :=
    match u_evaluations u !! sol with
    | None => Some None
    | Some e =>
      s ← ut_subtasks t !! st;
      results ← mapM (fun tc => eval_result ∘ t_status <$> e_testcases e !! tc) (us_testcases s);
      match mapM id results with
      | None => Some None
      | Some results => Some (Some (CheckOutcome sol c st (check (sc_kind c) results)))
      end
    end.
  (** ui_state.rs:376-411 [run_solution_checks]; [sols]: the solutions in the iteration order of the map *)
  Definition run_solution_checks (sols : list (path * sol_info)) (u : ui_state) : option (list check_outcome) :=
    outcomes ← mapM (fun x : path * sol_check * nat => check_subtask u x.1.1 x.1.2 x.2)
      (sols ≫= fun s => si_checks s.2 ≫= fun c => matching_subtasks (sc_pattern c) ≫= fun st => [(s.1, c, st)]);
    Some (omap id outcomes).
End apply.

(** ** The messages of the executions of a testcase *)
Section emit.
  (** As in ScoreModel *)
  Context (parse : list N -> option f64) (totext : list N -> string) (show : status -> string).

  (** What happens to an execution, as the client hears it (lib.rs:327-353: the callbacks bound to it) *)
  Inductive exec_event := XStarted (worker : nat) | XDone (r : exec_result) | XSkipped.
  Definition event_status (e : exec_event) : ui_status :=
    match e with XStarted w => UStarted w | XDone r => UDone r | XSkipped => USkipped end.

  (** A batch task: the execution of the solution and that of the checker *)
  Inductive tc_event := OnSolution (e : exec_event) | OnChecker (e : exec_event).
  (** The message sent by [score_manager.score] about the testcase (mod.rs:606-613) *)
  Definition scored (st tc : nat) (sol : path) (a : option (f64 * string)) : list ui_message :=
    match a with Some (score, msg) => [MTestcaseScore st tc sol score msg] | None => [] end.
  (** batch.rs:67-90 (the callbacks of the solution: first the UI, then the score) and 93-108 with checker.rs:96-99, 130-192
      (those of the checker: first the score, then the UI); [None]: a panic or an error *)
  Definition batch_messages (c : checker) (st tc : nat) (sol : path) (e : tc_event) : option (list ui_message) :=
    match e with
    | OnSolution e =>
      Some (MEvaluation st tc sol (event_status e) 0 1 ::
        match e with XDone r => scored st tc sol (process_answer show (res_status r)) | _ => [] end)
    | OnChecker e =>
      match e with
      | XDone r => a ← checker_answer parse totext c r; Some (scored st tc sol a ++ [MChecker st tc sol (UDone r)])
      | _ => Some [MChecker st tc sol (event_status e)]
      end
    end.
  (** ... after those sent while the DAG is built (lib.rs:319-326) *)
  Definition batch_pending (st tc : nat) (sol : path) : list ui_message :=
    [MEvaluation st tc sol UPending 0 1; MChecker st tc sol UPending].
  Definition batch_log (c : checker) (st tc : nat) (sol : path) (l : list tc_event) : option (list ui_message) :=
    ms ← mapM (batch_messages c st tc sol) l; Some (batch_pending st tc sol ++ concat ms).

  (** A communication task: the processes of the solution and the manager *)
  Inductive comm_event := OnProcess (i : nat) (e : exec_event) | OnManager (e : exec_event).
  (** communication.rs:153-178 and 207-241: first the UI, then the score *)
  Definition comm_messages (n st tc : nat) (sol : path) (e : comm_event) (d : sender_data) : option (sender_data * list ui_message) :=
    match e with
    | OnProcess i e =>
      let m := MEvaluation st tc sol (event_status e) i n in
      match e with
      | XDone r => '(d, a) ← sender_call (process_answer show (res_status r)) d; Some (d, m :: scored st tc sol a)
      | _ => Some (d, [m])
      end
    | OnManager e =>
      let m := MChecker st tc sol (event_status e) in
      match e with
      | XDone r => a ← manager_answer parse totext r; '(d, a) ← sender_call (Some a) d; Some (d, m :: scored st tc sol a)
      | _ => Some (d, [m])
      end
    end.
  Fixpoint comm_run (n st tc : nat) (sol : path) (l : list comm_event) (d : sender_data) : option (list ui_message) :=
    match l with
    | [] => Some []
    | e :: l => '(d, ms) ← comm_messages n st tc sol e d; ms' ← comm_run n st tc sol l d; Some (ms ++ ms')
    end.
  Definition comm_log (n st tc : nat) (sol : path) (l : list comm_event) : option (list ui_message) :=
    ms ← comm_run n st tc sol l (new_sender n);
    Some (map (fun i => MEvaluation st tc sol UPending i n) (seq 0 n) ++ [MChecker st tc sol UPending] ++ ms).
End emit.

(** The generation of a testcase: generator, validator of the owner, official solution (input_generator.rs:88-114,
    input_validator.rs:88-110, output_generator.rs:98-125; the diagnostics are left out) *)
Inductive gen_event := OnGenerator (e : exec_event) | OnValidator (e : exec_event) | OnOfficial (e : exec_event).
Definition gen_message (st tc : nat) (e : gen_event) : ui_message :=
  match e with
  | OnGenerator e => MGeneration st tc (event_status e)
  | OnValidator e => MValidation st tc (event_status e)
  | OnOfficial e => MSolution st tc (event_status e)
  end.
