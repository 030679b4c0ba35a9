(** * ScoreModel: task-maker-format/src/ioi/mod.rs (ScoreManager), ioi/dag/mod.rs (TestcaseScoreAggregator),
      ioi/dag/task_type/communication.rs (ScoreSender), testcase_score_status.rs

    Definitions only.  The numbers are f64 (FloatModel.v).  Simplifications: sending a message to the UI always succeeds;
    the messages carry only the numbers; ids are [nat]. *)
From stdpp Require Export gmap strings.
From Verif Require Export FloatModel DagModel.

Notation subtask_id := nat (only parsing).
Notation testcase_id := nat (only parsing).

(** dag/mod.rs:9-17 [TestcaseScoreAggregator] *)
Inductive aggregator := Min | Sum.
(** [Iterator::min_by(|a, b| a.partial_cmp(b).unwrap())] after the first element; [None] is the panic of [unwrap]. *)
Fixpoint min_from (m : f64) (l : list f64) : option f64 :=
  match l with
  | [] => Some m
  | x :: l => match f64_cmp m x with Some Gt => min_from x l | Some _ => min_from m l | None => None end
  end.
(** dag/mod.rs:68-88 [aggregate]; the number of scores is below 2^31. *)
Definition aggregate (a : aggregator) (l : list f64) : option f64 :=
  match a with
  | Min => match l with [] => Some f64_one | x :: l => min_from x l end
  | Sum => match l with [] => Some f64_one | _ => Some (f64_div (fold_left f64_add l f64_zero) (f64_of_Z (Z.of_nat (length l)))) end
  end.

(** The messages of the score manager. *)
Inductive score_event :=
  | TestcaseScored (st : subtask_id) (tc : testcase_id) (score : f64)
  | SubtaskScored (st : subtask_id) (score normalized : f64)
  | TaskScored (score : f64).

(** What the score manager needs to know of a task: the subtasks in the iteration order of [task.subtasks] (a hash map), for each the maximum score and
    the testcases; and the testcases. *)
Record subtask_info := SubtaskInfo { st_max : f64; st_testcases : list testcase_id }.
Record score_task := ScoreTask {
  tk_subtasks : list (subtask_id * subtask_info);
  tk_testcases : list testcase_id;
  tk_aggregator : aggregator
}.
(** mod.rs:64-77 [ScoreManager]; [sm_subtasks] in the iteration order of [subtask_scores] (another hash map; replacing a value does not change its order). *)
Record score_manager := ScoreManager {
  sm_subtasks : list (subtask_id * option f64);
  sm_testcases : gmap testcase_id (option f64)
}.
Section manager.
  (** [order]: the keys of the subtasks in the iteration order of [subtask_scores] *)
  Context (t : score_task) (order : list subtask_id).

  Definition info_of (st : subtask_id) : option subtask_info := list_to_map (M := gmap nat subtask_info) (tk_subtasks t) !! st.
  Definition set_subtask (st : subtask_id) (v : f64) (l : list (subtask_id * option f64)) : list (subtask_id * option f64) :=
    map (fun x => if decide (x.1 = st) then (x.1, Some v) else x) l.
  (** mod.rs:626-664 [score_subtask]; [None]: a panic (a missing key, or a NaN) *)
  Definition score_subtask (st : subtask_id) (sm : score_manager) : option (score_manager * list score_event) :=
    info ← info_of st;
    scores ← mapM (fun tc => sm_testcases sm !! tc) (st_testcases info);
    match mapM id scores with
    | None => Some (sm, [])
    | Some scores =>
      normalized ← aggregate (tk_aggregator t) scores;
      let score := f64_mul (st_max info) normalized in
      let sm := ScoreManager (set_subtask st score (sm_subtasks sm)) (sm_testcases sm) in
      Some (sm, SubtaskScored st score normalized ::
        match mapM snd (sm_subtasks sm) with
        | Some all => [TaskScored (fold_left f64_add all f64_zero)]
        | None => []
        end)
    end.
  Fixpoint score_subtasks (l : list subtask_id) (sm : score_manager) : option (score_manager * list score_event) :=
    match l with
    | [] => Some (sm, [])
    | st :: l => '(sm, evs) ← score_subtask st sm; '(sm, evs') ← score_subtasks l sm; Some (sm, evs ++ evs')
    end.
  (** mod.rs:565-595 [ScoreManager::new] *)
  Definition new_manager : option (score_manager * list score_event) :=
    let sm := ScoreManager (map (fun st => (st, None)) order) (list_to_map (map (fun tc => (tc, None)) (tk_testcases t))) in
    score_subtasks (omap (fun x => match st_testcases x.2 with [] => Some x.1 | _ => None end) (tk_subtasks t)) sm.
  (** mod.rs:599-624 [score] *)
  Definition score (st : subtask_id) (tc : testcase_id) (v : f64) (sm : score_manager) : option (score_manager * list score_event) :=
    let sm := ScoreManager (sm_subtasks sm) (<[tc := Some v]> (sm_testcases sm)) in
    let pending := omap (fun x => match x.2 with None => Some x.1 | Some _ => None end) (sm_subtasks sm) in
    '(sm, evs) ← score_subtasks pending sm;
    Some (sm, TestcaseScored st tc v :: evs).
  (** A sequence of scores *)
  Fixpoint score_all (l : list (subtask_id * testcase_id * f64)) (sm : score_manager) : option (score_manager * list score_event) :=
    match l with
    | [] => Some (sm, [])
    | (st, tc, v) :: l => '(sm, evs) ← score st tc v sm; '(sm, evs') ← score_all l sm; Some (sm, evs ++ evs')
    end.
  Definition run_scores (l : list (subtask_id * testcase_id * f64)) : option (list score_event) :=
    '(sm, evs) ← new_manager; '(_, evs') ← score_all l sm; Some (evs ++ evs').
End manager.

(** ** communication.rs:39-56 [ScoreSenderData] *)
Record sender_data := SenderData { sd_missing : nat; sd_answer : option (f64 * string) }.
(** communication.rs:304-329 [maybe_flush]: what is given to [ScoreManager::score], if anything *)
Definition maybe_flush (d : sender_data) : option (f64 * string) :=
  if decide (0 < sd_missing d) then None else sd_answer d.
(** communication.rs:272-286 [send] ([Some a]) and 291-300 [skip] ([None]); [None]: the assertion fails. *)
Definition sender_call (a : option (f64 * string)) (d : sender_data) : option (sender_data * option (f64 * string)) :=
  if decide (0 < sd_missing d) then
    let answer := match a, sd_answer d with
                  | Some (score, message), None => Some (score, message)
                  | Some (score, message), Some old => if f64_lt score old.1 then Some (score, message) else Some old
                  | None, old => old
                  end in
    let d := SenderData (sd_missing d - 1) answer in
    Some (d, maybe_flush d)
  else None.
(** The answers to a sequence of calls *)
Fixpoint sender_calls (l : list (option (f64 * string))) (d : sender_data) : option (list (option (f64 * string))) :=
  match l with
  | [] => Some []
  | a :: l => '(d, r) ← sender_call a d; rs ← sender_calls l d; Some (r :: rs)
  end.
(** communication.rs:249-266 [new], with the [num_answers] of 107-113 *)
Definition new_sender (num_processes : nat) : sender_data := SenderData (num_processes + 1) None.

(** dag/checker.rs:198-206 [translate_checker_message] *)
Definition translate (m : string) : string :=
  if decide (m = "translate:success") then "Output is correct"
  else if decide (m = "translate:partial") then "Output is partially correct"
  else if decide (m = "translate:wrong") then "Output is incorrect"
  else m.
Section callbacks.
  (** [parse]: [String::from_utf8_lossy], [trim] and [parse::<f64>]; [text]: [from_utf8_lossy] and [trim]; [show]: the [Debug] format of a status *)
  Context (parse : list N -> option f64) (text : list N -> string) (show : status -> string).
  (** communication.rs:168-177: a process of the solution is done *)
  Definition process_answer (s : status) : option (f64 * string) := if is_success s then None else Some (f64_zero, show s).
  (** communication.rs:219-240: the manager is done; [None]: an error *)
  Definition manager_answer (r : exec_result) : option (f64 * string) :=
    if is_success (res_status r) then
      stdout ← res_stdout r; stderr ← res_stderr r; score ← parse stdout; Some (score, translate (text stderr))
    else Some (f64_zero, "Checker failed").
  (** The executions of the group of a communication task, as they are heard *)
  Inductive group_event := ProcessDone (s : status) | ManagerDone (r : exec_result).
  Definition group_answer (e : group_event) : option (option (f64 * string)) :=
    match e with ProcessDone s => Some (process_answer s) | ManagerDone r => a ← manager_answer r; Some (Some a) end.
  (** What the score manager is told, event by event; [None]: an error or a panic *)
  Fixpoint group_run (l : list group_event) (d : sender_data) : option (list (option (f64 * string))) :=
    match l with
    | [] => Some []
    | e :: l => a ← group_answer e; '(d, r) ← sender_call a d; rs ← group_run l d; Some (r :: rs)
    end.

  (** dag/checker.rs:22-30 [Checker] *)
  Inductive checker := WhiteDiff | CustomChecker.
  (** dag/checker.rs:68-84 and 101-145: the score given to the callback, if any; [None]: an error or a panic *)
  Definition checker_answer (c : checker) (r : exec_result) : option (option (f64 * string)) :=
    match c with
    | WhiteDiff =>
      match res_status r with
      | Success => Some (Some (f64_one, "Output is correct"))
      | ReturnCode 1 => Some (Some (f64_zero, "Output is incorrect"))
      | _ => None
      end
    | CustomChecker =>
      stdout ← res_stdout r; stderr ← res_stderr r;
      if is_success (res_status r) then
        match parse stdout with Some score => Some (Some (score, translate (text stderr))) | None => Some None end
      else Some None
    end.
  (** The executions of a solution of a batch task, as they are heard *)
  Inductive batch_event :=
    | SolutionDone (st : subtask_id) (tc : testcase_id) (s : status)
    | CheckerDone (st : subtask_id) (tc : testcase_id) (r : exec_result).
  (** task_type/batch.rs:79-109: the score given to the score manager, if any *)
  Definition batch_answer (c : checker) (e : batch_event) : option (option (subtask_id * testcase_id * f64)) :=
    match e with
    | SolutionDone st tc s => Some (if is_success s then None else Some (st, tc, f64_zero))
    | CheckerDone st tc r => match checker_answer c r with Some (Some a) => Some (Some (st, tc, a.1)) | Some None => Some None | None => None end
    end.
  (** All of them; [None]: an error or a panic *)
  Definition batch_arrivals (c : checker) (l : list batch_event) : option (list (subtask_id * testcase_id * f64)) :=
    answers ← mapM (batch_answer c) l; Some (omap id answers).
End callbacks.

(** ** testcase_score_status.rs:2-23 *)
Inductive score_status := StAccepted | StPartialScore | StWrongAnswer.
(** The literal 0.001 *)
Definition f64_thousandth : f64 := S754_finite false 4611686018427388 (-62).
Definition from_score (score max_score : f64) : score_status :=
  if f64_eq score f64_zero then StWrongAnswer
  else if f64_lt (f64_abs (f64_sub score max_score)) f64_thousandth then StAccepted
  else StPartialScore.
