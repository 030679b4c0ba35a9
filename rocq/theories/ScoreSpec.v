(** * ScoreSpec: vocabulary of the properties C39-C41, C50 *)
From Verif Require Export ScoreModel.

(** Projections of the messages *)
Definition subtask_scored (st : subtask_id) (e : score_event) : option (f64 * f64) :=
  match e with SubtaskScored st' score normalized => if decide (st' = st) then Some (score, normalized) else None | _ => None end.
Definition task_scored (e : score_event) : option f64 := match e with TaskScored s => Some s | _ => None end.
Definition testcase_scored (e : score_event) : option (subtask_id * testcase_id * f64) :=
  match e with TestcaseScored st tc v => Some (st, tc, v) | _ => None end.

(** A task: the subtasks have distinct ids, their testcases exist.  [order] is an iteration order of the subtasks. *)
Definition task_ok (t : score_task) (order : list subtask_id) : Prop :=
  NoDup (tk_subtasks t).*1 /\ order ≡ₚ (tk_subtasks t).*1 /\
  forall st info tc, (st, info) ∈ tk_subtasks t -> tc ∈ st_testcases info -> tc ∈ tk_testcases t.
(** The scores that arrive: each testcase once. *)
Notation arrivals := (list (subtask_id * testcase_id * f64)).
Definition arrivals_ok (l : arrivals) : Prop := NoDup (map (fun x => x.1.2) l).
Definition score_of (l : arrivals) (tc : testcase_id) : option f64 := list_to_map (M := gmap nat f64) (map (fun x => (x.1.2, x.2)) l) !! tc.
(** The scores of a subtask, if all of them arrived *)
Definition subtask_scores (l : arrivals) (info : subtask_info) : option (list f64) := mapM (score_of l) (st_testcases info).
(** What is to be told about a subtask: nothing as long as a testcase is missing, then the score and the normalized score *)
Definition expected (a : aggregator) (l : arrivals) (info : subtask_info) : option (f64 * f64) :=
  scores ← subtask_scores l info; n ← aggregate a scores; Some (f64_mul (st_max info) n, n).
(** The sum of the scores of all the subtasks, in an order *)
Definition total (t : score_task) (l : arrivals) (order : list subtask_id) : option f64 :=
  scores ← mapM (fun st => info ← info_of t st; r ← expected (tk_aggregator t) l info; Some r.1) order;
  Some (fold_left f64_add scores f64_zero).

(** ** Communication tasks *)
(** The smallest score heard, with the message of the first execution that gives it *)
Definition worst (heard : list (option (f64 * string))) (answer : option (f64 * string)) : Prop :=
  match answer with
  | None => forall a, a ∈ heard -> a = None
  | Some (v, m) => exists l1 l2, heard = l1 ++ Some (v, m) :: l2 /\
      (forall v' m', Some (v', m') ∈ l1 -> f64_lt v v' = true) /\
      (forall v' m', Some (v', m') ∈ l2 -> f64_lt v' v = false)
  end.
Definition no_nan (v : f64) : Prop := v <> S754_nan.
Definition sent (heard : list (option (f64 * string))) : list f64 := omap (fmap fst) heard.

(** ** Batch tasks *)
Definition event_tc (e : batch_event) : testcase_id := match e with SolutionDone _ tc _ => tc | CheckerDone _ tc _ => tc end.
Definition solution_done (e : batch_event) : option (testcase_id * status) := match e with SolutionDone _ tc s => Some (tc, s) | _ => None end.
Definition checker_done (e : batch_event) : option testcase_id := match e with CheckerDone _ tc _ => Some tc | _ => None end.
(** What the scheduler grants (C01-C15): each execution is heard at most once; the checker of a testcase needs the output of the solution, so it runs only if the solution did not fail. *)
Definition batch_ok (l : list batch_event) : Prop :=
  NoDup (omap solution_done l).*1 /\ NoDup (omap checker_done l) /\
  (forall tc s, (tc, s) ∈ omap solution_done l -> tc ∈ omap checker_done l -> s = Success).
(** Every execution was heard: the solution on each testcase, and the checker where the solution did not fail *)
Definition batch_complete (t : score_task) (l : list batch_event) : Prop :=
  forall tc, tc ∈ tk_testcases t -> exists s, (tc, s) ∈ omap solution_done l /\ (s = Success -> tc ∈ omap checker_done l).
