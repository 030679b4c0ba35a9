(** * ReportModel: what is printed at the end of an evaluation (task-maker-format/src/ioi/finish_ui.rs)

    Definitions only.  What is printed is a structure of rows and cells, not characters; a panic (an index that is
    missing, a subtraction below zero, [unwrap]) is [None].
    - The information about the task, the compilations, the booklets and the diagnostics are not modelled.
    - [path_le] is the order of the paths; [order] and [sols] are the iteration orders of the maps, as in UiStateModel. *)
From stdpp Require Import gmap strings sorting.
From Verif Require Export UiStateModel.

(** finish_ui.rs:397-408, ui_state.rs:36-65: the letters; the colors are those of ui/mod.rs *)
Inductive letter := LA | LW | LP | LT | LM | LR | LF | LS | LX.
Inductive color := Green | Red | Yellow | Orange | Bold.
(** finish_ui.rs:388-409; [close]: the testcase is close to the limits *)
Definition testcase_letter (close : bool) (s : eval_status) : letter * color :=
  let near c := if close then Orange else c in
  match s with
  | EAccepted _ => (LA, near Green)
  | EWrongAnswer _ => (LW, Red)
  | EPartial _ => (LP, near Yellow)
  | ETimeLimit => (LT, near Red)
  | EWallTime => (LT, Red)
  | EMemory => (LM, near Red)
  | ERuntimeError => (LR, Red)
  | EFailed => (LF, Bold)
  | ESkipped => (LS, Bold)
  | _ => (LX, Bold)
  end.
(** finish_ui.rs:448-455 [score_color] *)
Definition score_color (normalized : f64) : color :=
  match from_score normalized f64_one with StAccepted => Green | StWrongAnswer => Red | StPartialScore => Yellow end.
(** ui_state.rs:277-313 [message] *)
Definition status_message (s : eval_status) : string :=
  match s with
  | EPending => "Not done"
  | ESolving => "Solution running"
  | ESolved => "Solution completed"
  | EChecking => "Checker running"
  | EAccepted m => if decide (m = "") then "Output is correct" else m
  | EWrongAnswer m => if decide (m = "") then "Output is not correct" else m
  | EPartial m => if decide (m = "") then "Partially correct" else m
  | ETimeLimit => "Time limit exceeded"
  | EWallTime => "Execution took too long"
  | EMemory => "Memory limit exceeded"
  | ERuntimeError => "Runtime error"
  | EFailed => "Execution failed"
  | ESkipped => "Execution skipped"
  end%string.
(** A row of the summary: finish_ui.rs:343-414 *)
Record summary_row := SummaryRow {
  sr_solution : path;
  sr_score : option f64;
  sr_scores : list (nat * option (f64 * color));
  sr_letters : list (nat * color * list (nat * (letter * color)))
}.
(** The line of a testcase: finish_ui.rs:239-313; what follows the message: the statuses that are not in it *)
Record testcase_line := TestcaseLine {
  tl_testcase : nat;
  tl_score : option f64;
  tl_results : list (option resources);
  tl_message : string;
  tl_statuses : list status;
  tl_killed : bool;
  tl_cached : bool
}.
(** solution.rs:231-242 [as_compact_str] *)
Definition compact (k : check_kind) : string :=
  match k with
  | KAccepted => "AC" | KPartialScore => "PS" | KWrongAnswer => "WA" | KTimeLimit => "TLE" | KWallTime => "WTLE" | KMemory => "MLE"
  | KRuntimeError => "RE" | KZero => "ZR"
  end%string.
(** A cell of the table of the checks: the checks with their outcome and the spaces that follow; no checks: a question mark *)
Record check_cell := CheckCell { cc_checks : list (check_kind * bool); cc_spaces : nat }.

Section report.
  Context (t : ui_task) (path_le : relation path) `{!RelDecision path_le}.
  (** [close e tc]: [is_close_to_limits] of ui_state.rs:129-157 with the limits of the task *)
  Context (close : tc_state -> bool).
  (** [keys().sorted()] *)
  Definition sorted_subtasks {A} (m : gmap nat A) : list nat := merge_sort le (elements (dom m)).
  Definition sorted_paths {A} (m : gmap path A) : list path := merge_sort path_le (elements (dom m)).

  (** finish_ui.rs:363-373 *)
  Definition score_cell (x : option f64 * option f64) : option (f64 * color) :=
    match x with (Some score, Some normalized) => Some (score, score_color normalized) | _ => None end.
  (** finish_ui.rs:375-412 *)
  Definition letters_cell (e : sol_state) (st : nat) : option (nat * color * list (nat * (letter * color))) :=
    x ← e_subtasks e !! st;
    s ← ut_subtasks t !! st;
    ls ← mapM (fun tc => tc_st ← e_testcases e !! tc; Some (tc, testcase_letter (close tc_st) (t_status tc_st))) (us_owned s);
    Some (st, score_color (default f64_zero x.2), ls).
  Definition summary_of (e : sol_state) (sol : path) : option summary_row :=
    scores ← mapM (fun st => x ← e_subtasks e !! st; Some (st, score_cell x)) (sorted_subtasks (e_subtasks e));
    ls ← mapM (letters_cell e) (sorted_subtasks (e_subtasks e));
    Some (SummaryRow sol (e_score e) scores ls).
  (** finish_ui.rs:324-416 [print_summary]: the columns of the header and the rows *)
  Definition summary_table (u : ui_state) : option (list nat * list summary_row) :=
    rows ← mapM (fun sol => e ← u_evaluations u !! sol; summary_of e sol) (sorted_paths (u_evaluations u));
    Some (sorted_subtasks (ut_subtasks t), rows).

  (** finish_ui.rs:227-313 [print_testcase_outcome] *)
  Definition odd_status (s : status) : bool := match s with ReturnCode _ | Signal _ _ | InternalError _ => true | _ => false end.
  Definition ran (x : tc_state) : list exec_result := concat (map (fun r => match r with Some r => [r] | None => [] end) (t_results x)).
  Definition testcase_outcome (tc : nat) (x : tc_state) : testcase_line :=
    TestcaseLine tc (t_score x) (map (option_map res_resources) (t_results x)) (status_message (t_status x))
      (List.filter odd_status (map res_status (ran x)))
      (foldl (fun b r => b || res_was_killed r) false (ran x))
      (foldl (fun b r => b && res_was_cached r) true (ran x)).
  (** finish_ui.rs:178-225 [print_evaluations], [print_evaluation] *)
  Definition evaluation_of (sol : path) (e : sol_state) : option (path * option f64 * list (nat * option f64 * list testcase_line)) :=
    ls ← mapM (fun st =>
      x ← e_subtasks e !! st;
      s ← ut_subtasks t !! st;
      lines ← mapM (fun tc => x ← e_testcases e !! tc; Some (testcase_outcome tc x)) (us_owned s);
      Some (st, x.1, lines)) (sorted_subtasks (e_subtasks e));
    Some (sol, e_score e, ls).
  Definition evaluations_table (u : ui_state) := mapM (fun sol => e ← u_evaluations u !! sol; evaluation_of sol e) (sorted_paths (u_evaluations u)).
  (** finish_ui.rs:110-175 [print_generations]: for each execution that has ended, whether it succeeded *)
  Definition generation_line (tc : nat) (g : gen_state) : nat * list (option bool) :=
    (tc, map (option_map (fun r => is_success (res_status r))) [g_generation g; g_validation g; g_solution g]).
  Definition generations_table (u : ui_state) : option (list (nat * list (nat * list (option bool)))) :=
    mapM (fun st => tcs ← u_generations u !! st; _ ← ut_subtasks t !! st;
      lines ← mapM (fun tc => g ← tcs !! tc; Some (generation_line tc g)) (sorted_subtasks tcs);
      Some (st, lines)) (sorted_subtasks (u_generations u)).

  (** finish_ui.rs:507-602 [print_subtask_checks_table] *)
  Context (order : list nat) (wild : text -> text -> bool) (is_symlink : path -> bool) (name_len : text -> nat).
  Definition cell_of (os : list check_outcome) (sol : path) (st : nat) : list (check_kind * bool) :=
    (fun o => (sc_kind (co_check o), co_success o)) <$> List.filter (fun o => bool_decide (co_solution o = sol) && bool_decide (co_subtask o = st)) os.
  (** the length of the cell: joined with spaces *)
  Definition cell_len (cs : list (check_kind * bool)) : nat := String.length (String.concat " " (compact ∘ fst <$> cs)).
  (** finish_ui.rs:584-594: what has been printed of the cell *)
  Definition printed_len (cs : list (check_kind * bool)) : nat :=
    foldl (fun n c => ((if decide (0 < n) then n + 1 else n) + String.length (compact c.1))%nat) 0%nat cs.
  (** finish_ui.rs:525-553: [column_widths[i] = max(column_widths[i], w)]; [None]: the index is out of bounds *)
  Definition widen (i w : nat) (ws : list nat) : option (list nat) := x ← ws !! i; Some (<[i := x `max` w]> ws).
  Fixpoint widen_all (l : list (nat * nat)) (ws : list nat) : option (list nat) :=
    match l with [] => Some ws | (i, w) :: l => ws ← widen i w ws; widen_all l ws end.
  Definition checks_table (sols : list (path * sol_info)) (sol_len : path -> nat) (u : ui_state) : option (list text * list (path * list (option check_cell))) :=
    os ← run_solution_checks t order wild sols u;
    let rows := List.filter (fun p => negb (is_symlink p)) (sorted_paths (u_solutions u)) in
    names ← mapM (fun st => s ← ut_subtasks t !! st; us_name s) order;
    widths ← widen_all (zip_with (fun st name => (st + 1, name_len name)%nat) order names) (replicate (size (ut_subtasks t) + 1) 1%nat);
    widths ← widen_all (rows ≫= fun sol => (0%nat, sol_len sol) :: ((fun st => ((st + 1)%nat, cell_len (cell_of os sol st))) <$> order)) widths;
    header ← mapM (fun st => s ← ut_subtasks t !! st; _ ← widths !! (st + 1)%nat; us_name s) (sorted_subtasks (ut_subtasks t));
    lines ← mapM (fun sol =>
      cells ← mapM (fun st =>
        w ← widths !! (st + 1)%nat;
        match cell_of os sol st with
        | [] => Some None
        | cs => if decide (printed_len cs <= w)%nat then Some (Some (CheckCell cs (w - printed_len cs))) else None
        end) (sorted_subtasks (ut_subtasks t));
      Some (sol, cells)) rows;
    Some (header, lines).
  (** finish_ui.rs:35-62 [print]; [sols]: the solutions in the iteration order of the map *)
  Definition all_named : bool := forallb (fun st => match us_name st.2 with Some _ => true | None => false end) (map_to_list (ut_subtasks t)).
  Record report := Report {
    rp_generations : list (nat * list (nat * list (option bool)));
    rp_evaluations : list (path * option f64 * list (nat * option f64 * list testcase_line));
    rp_checks : option (list text * list (path * list (option check_cell)));
    rp_summary : option (list nat * list summary_row)
  }.
  Definition print_report (sols : list (path * sol_info)) (sol_len : path -> nat) (u : ui_state) : option report :=
    gens ← generations_table u;
    if decide (u_evaluations u = ∅) then Some (Report gens [] None None)
    else
      evals ← evaluations_table u;
      checks ← (if all_named then c ← checks_table sols sol_len u; Some (Some c) else Some None);
      summary ← summary_table u;
      Some (Report gens evals checks (Some summary)).
End report.
