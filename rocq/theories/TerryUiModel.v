(** * TerryUiModel: task-maker-format/src/terry/ui_state.rs, the messages sent to it by the executions of a solution
      (dag/mod.rs, mod.rs:199-227), and what terry/finish_ui.rs prints about a solution

    Definitions only.  A panic ([expect], [unreachable!]) is [None].  Simplifications as in [UiStateModel]: paths are
    strings, a diagnostic is a string, the status of the executor is a number; the messages of IOI tasks are one
    constructor; the format of the JSON printed by the checker is a parameter ([parse]); texts, alerts and colors other
    than those of the score are left out, and so is the order in which the solutions are printed. *)
From stdpp Require Export gmap strings.
From Verif Require Export UiStateModel.

(** mod.rs:69-126 [SolutionOutcome]: score, cases of the validation, cases of the feedback *)
Inductive case_status := CaseMissing | CaseParsed | CaseInvalid.
Record sol_outcome := SolOutcome { so_score : f64; so_validation : list (case_status * option string); so_feedback : list (bool * option string) }.

(** ui_state.rs:48-73 [SolutionStatus] *)
Inductive terry_status :=
  TPending | TGenerating | TGenerated | TValidating | TValidated | TSolving | TSolved | TChecking | TDone | TFailed (msg : string) | TSkipped.
(** ui_state.rs:30-46 [SolutionState] *)
Record t_state := TState {
  ts_status : terry_status; ts_outcome : option (sol_outcome + string); ts_seed : option N;
  ts_generator : option exec_result; ts_validator : option exec_result; ts_solution : option exec_result; ts_checker : option exec_result }.
Definition new_t_state : t_state := TState TPending None None None None None None.
(** ui_state.rs:14-27 [UIState] *)
Record t_ui := TUi {
  tu_compilations : gmap path comp_status; tu_solutions : gmap path t_state; tu_executor : option nat; tu_diagnostics : list string }.
Definition new_t_ui : t_ui := TUi ∅ ∅ None [].

(** ui/ui_message.rs *)
Inductive t_message :=
  | TMStopUI
  | TMServerStatus (s : nat)
  | TMSolutions (l : list path)
  | TMCompilation (file : path) (s : ui_status)
  | TMTask
  | TMGeneration (sol : path) (seed : N) (s : ui_status)
  | TMValidation (sol : path) (s : ui_status)
  | TMSolution (sol : path) (s : ui_status)
  | TMChecker (sol : path) (s : ui_status)
  | TMOutcome (sol : path) (o : sol_outcome + string)
  | TMDiagnostic (d : string)
  | TMIOI.

Definition set_t_status (x : terry_status) (s : t_state) : t_state :=
  TState x (ts_outcome s) (ts_seed s) (ts_generator s) (ts_validator s) (ts_solution s) (ts_checker s).
(** ui_state.rs:103-133 [process_step!] without the lookup; [keep]: where the result goes *)
Definition process_step (m : ui_status) (keep : exec_result -> t_state -> t_state) (start ok : terry_status) (name : string) (s : t_state) : t_state :=
  match m with
  | UPending => set_t_status TPending s
  | UStarted _ => set_t_status start s
  | UDone r => keep r (set_t_status (if is_success (res_status r) then ok else TFailed (name +:+ " failed")) s)
  | USkipped => match ts_status s with TFailed _ => s | _ => set_t_status TSkipped s end
  end.
Definition keep_generator r s := TState (ts_status s) (ts_outcome s) (ts_seed s) (Some r) (ts_validator s) (ts_solution s) (ts_checker s).
Definition keep_validator r s := TState (ts_status s) (ts_outcome s) (ts_seed s) (ts_generator s) (Some r) (ts_solution s) (ts_checker s).
Definition keep_solution r s := TState (ts_status s) (ts_outcome s) (ts_seed s) (ts_generator s) (ts_validator s) (Some r) (ts_checker s).
Definition keep_checker r s := TState (ts_status s) (ts_outcome s) (ts_seed s) (ts_generator s) (ts_validator s) (ts_solution s) (Some r).
Definition set_seed (n : N) (s : t_state) := TState (ts_status s) (ts_outcome s) (Some n) (ts_generator s) (ts_validator s) (ts_solution s) (ts_checker s).
Definition set_outcome (o : sol_outcome + string) (s : t_state) :=
  TState (ts_status s) (Some o) (ts_seed s) (ts_generator s) (ts_validator s) (ts_solution s) (ts_checker s).

(** [self.solutions.get_mut(&solution).expect(..)] *)
Definition on_solution (sol : path) (f : t_state -> t_state) (u : t_ui) : option t_ui :=
  x ← tu_solutions u !! sol;
  Some (TUi (tu_compilations u) (<[sol := f x]> (tu_solutions u)) (tu_executor u) (tu_diagnostics u)).

(** ui_state.rs:100-218 [UIState::apply] *)
Definition t_apply (m : t_message) (u : t_ui) : option t_ui :=
  match m with
  | TMStopUI => Some u
  | TMServerStatus s => Some (TUi (tu_compilations u) (tu_solutions u) (Some s) (tu_diagnostics u))
  | TMSolutions l => Some (TUi (tu_compilations u) (foldl (fun m p => <[p := new_t_state]> m) ∅ l) (tu_executor u) (tu_diagnostics u))
  | TMCompilation file s => Some (TUi (<[file := comp_apply s]> (tu_compilations u)) (tu_solutions u) (tu_executor u) (tu_diagnostics u))
  | TMTask => Some u
  | TMGeneration sol seed s => on_solution sol (fun x => set_seed seed (process_step s keep_generator TGenerating TGenerated "Generator" x)) u
  | TMValidation sol s => on_solution sol (process_step s keep_validator TValidating TValidated "Validator") u
  | TMSolution sol s => on_solution sol (process_step s keep_solution TSolving TSolved "Solution") u
  | TMChecker sol s => on_solution sol (process_step s keep_checker TChecking TDone "Checker") u
  | TMOutcome sol o => on_solution sol (set_outcome o) u
  | TMDiagnostic d => Some (TUi (tu_compilations u) (tu_solutions u) (tu_executor u) (tu_diagnostics u ++ [d]))
  | TMIOI => None
  end.
Fixpoint t_run (ms : list t_message) (u : t_ui) : option t_ui :=
  match ms with [] => Some u | m :: ms => u ← t_apply m u; t_run ms u end.

(** ** The messages of the executions of a solution *)
Inductive t_stage := StGenerator | StValidator | StSolution | StChecker.
Global Instance t_stage_eq_dec : EqDecision t_stage.
Proof. solve_decision. Defined.
Section emit.
  (** serde_json::from_slice, and the message of its error *)
  Context (parse : list N -> sol_outcome + string).
  (** dag/mod.rs:243-250 and mod.rs:218-225: the callback of the checker; [None]: an error (the standard output was not captured) *)
  Definition outcome_message (sol : path) (r : exec_result) : option t_message :=
    out ← res_stdout r;
    Some (TMOutcome sol (match parse out with inl o => inl o | inr e => inr ("Invalid checker outcome: " +:+ e) end)).
  Definition stage_message (sol : path) (seed : N) (st : t_stage) (s : ui_status) : t_message :=
    match st with
    | StGenerator => TMGeneration sol seed s
    | StValidator => TMValidation sol s
    | StSolution => TMSolution sol s
    | StChecker => TMChecker sol s
    end.
  (** The callbacks bound to an execution (lib.rs:327-353); the one of the outcome is the first of the checker (dag/mod.rs:247, 277) *)
  Definition t_messages (sol : path) (seed : N) (st : t_stage) (e : exec_event) : option (list t_message) :=
    match st, e with
    | StChecker, XDone r => m ← outcome_message sol r; Some [m; TMChecker sol (UDone r)]
    | _, _ => Some [stage_message sol seed st (event_status e)]
    end.
  Fixpoint t_log (sol : path) (seed : N) (l : list (t_stage * exec_event)) : option (list t_message) :=
    match l with
    | [] => Some []
    | (st, e) :: l => a ← t_messages sol seed st e; b ← t_log sol seed l; Some (a ++ b)
    end.
  (** ... after those sent while the DAG is built (lib.rs:319-326) *)
  Definition t_pending (validator : bool) (sol : path) (seed : N) : list t_message :=
    map (fun st => stage_message sol seed st UPending) ([StGenerator] ++ (if validator then [StValidator] else []) ++ [StSolution; StChecker]).
End emit.

(** ** The summary: finish_ui.rs:168-221 *)
Inductive color := Green | Red | Yellow.
(** f64::EPSILON = 2^-52; approx: [abs_diff_eq!] *)
Definition f64_epsilon : f64 := S754_finite false 4503599627370496 (-104).
Definition f64_le : f64 -> f64 -> bool := SFleb.
Definition abs_diff_eq (a b : f64) : bool := f64_le (f64_abs (f64_sub a b)) f64_epsilon.
(** The value of [score.floor()] when it is finite; the infinities and NaN are printed by name *)
Definition f64_floor (x : f64) : option Z :=
  match x with
  | S754_zero _ => Some 0%Z
  | S754_finite s m e =>
    let v := if s then Z.neg m else Z.pos m in
    Some (if (0 <=? e)%Z then v * 2 ^ e else v / 2 ^ (- e))%Z
  | _ => None
  end.
Inductive mark := MarkMissing | MarkCorrect | MarkWrong | MarkInvalid.
Definition case_mark (v : case_status * option string) (f : bool * option string) : mark :=
  match fst v with CaseMissing => MarkMissing | CaseInvalid => MarkInvalid | CaseParsed => if fst f then MarkCorrect else MarkWrong end.
Inductive summary := SumScore (c : color) (score : option Z) (marks : list mark) | SumText (msg : string).
Definition summary_line (max_score : f64) (s : t_state) : summary :=
  match ts_outcome s with
  | Some (inl o) =>
    SumScore (if abs_diff_eq (so_score o) f64_one then Green else if abs_diff_eq (so_score o) f64_zero then Red else Yellow)
             (f64_floor (f64_mul (so_score o) max_score))
             (zip_with case_mark (so_validation o) (so_feedback o))
  | Some (inr e) => SumText e
  | None => SumText (match ts_status s with TFailed e => e | _ => "Failed" end)
  end.
