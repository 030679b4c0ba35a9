(** * ReportSpec: what is expected of the final report (C89) *)
From stdpp Require Import gmap strings sorting.
From Verif Require Export UiStateSpec ReportModel.

(** The states that the messages of an evaluation lead to *)
Definition reachable (t : ui_task) (u : ui_state) : Prop := exists ms, ui_run t ms (new_ui_state t) = Some u.
(** Each testcase of the task is owned by exactly one subtask, and the testcases of the subtasks are those of the task *)
Definition owned_once (t : ui_task) : Prop := (map_to_list (ut_subtasks t) ≫= fun p => us_owned p.2) ≡ₚ elements (ut_testcases t).
Definition testcases_exist (t : ui_task) : Prop := forall st s tc, ut_subtasks t !! st = Some s -> tc ∈ us_testcases s -> tc ∈ ut_testcases t.
(** The subtasks are numbered from zero *)
Definition numbered (t : ui_task) : Prop := forall st, is_Some (ut_subtasks t !! st) -> (st < size (ut_subtasks t))%nat.
Definition each_subtask (t : ui_task) (l : list nat) : Prop := l ≡ₚ elements (dom (ut_subtasks t)).

(** The letter of an outcome *)
Inductive letter_of : eval_status -> letter -> Prop :=
  | letter_accepted m : letter_of (EAccepted m) LA
  | letter_wrong m : letter_of (EWrongAnswer m) LW
  | letter_partial m : letter_of (EPartial m) LP
  | letter_time : letter_of ETimeLimit LT
  | letter_wall : letter_of EWallTime LT
  | letter_memory : letter_of EMemory LM
  | letter_runtime : letter_of ERuntimeError LR
  | letter_failed : letter_of EFailed LF
  | letter_skipped : letter_of ESkipped LS
  | letter_unfinished s : has_completed s = false -> letter_of s LX.
(** The color: orange for what is close to the limits, unless it failed for another reason *)
Definition can_be_close (s : eval_status) : Prop := (exists m, s = EAccepted m \/ s = EPartial m) \/ s = ETimeLimit \/ s = EMemory.
Definition plain_color (s : eval_status) : color :=
  match s with
  | EAccepted _ => Green
  | EPartial _ => Yellow
  | EWrongAnswer _ | ETimeLimit | EWallTime | EMemory | ERuntimeError => Red
  | EFailed | ESkipped | EPending | ESolving | ESolved | EChecking => Bold
  end.
(** The outcomes with a message of the checker *)
Definition checker_message (s : eval_status) : option string :=
  match s with EAccepted m | EWrongAnswer m | EPartial m => Some m | _ => None end.
(** What is said of an execution: nothing before it ends, then whether it succeeded *)
Definition execution_said (r : option exec_result) (said : option bool) : Prop :=
  match r with
  | None => said = None
  | Some r => exists b, said = Some b /\ (b = true <-> res_status r = Success)
  end.

Section cells.
  Context (t : ui_task) (wild : text -> text -> bool).
  (** What a check of a solution says in the column of a subtask: nothing if it is about other subtasks, or the solution has not been evaluated on all its testcases *)
  Definition expected_check (u : ui_state) (sol : path) (st : nat) (c : sol_check) : list (check_kind * bool) :=
    match ut_subtasks t !! st, u_evaluations u !! sol with
    | Some s, Some _ =>
      match us_name s with
      | Some name =>
        if wild (sc_pattern c) name then
          match mapM (fun tc => x ← shown u sol tc; eval_result (t_status x)) (us_testcases s) with
          | Some results => [(sc_kind c, check (sc_kind c) results)]
          | None => []
          end
        else []
      | None => []
      end
    | _, _ => []
    end.
End cells.
