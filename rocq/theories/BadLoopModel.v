(** * BadLoopModel: the search of find-bad-case

    Models src/tools/find_bad_case/mod.rs, [main_find_bad_case] (lines 50-259), [copy_testcase] (261-312), the cut of
    [print_file] (325-332), and state.rs, [UIState::apply] (lines 132-230): the main thread, the thread that forwards the
    messages of an evaluation, the thread of the UI, the ctrl-c handler.

    Simplifications:
    - The batches are given ([BadCaseModel] builds them). An evaluation sends any messages about the testcases of its
      batch (this includes an evaluation that is stopped early); it may fail at any point.
    - The locks: every access to the shared state is one step; a panic while it is locked poisons it.
    - When the main thread returns an error or panics the process ends.
    - The sums of the times and the last status of the executor are left out.
    - A score of exactly 1.0 is compared as an f64 ([FloatModel]). *)
From Verif Require Export BadCaseModel FloatModel.
From Coq Require Import Ascii String.
From stdpp Require Import base list.

(** ** The state of the UI *)
(** ui.rs, [UIExecutionStatus] *)
Inductive exec_event := EvStarted | EvDone (r : exec_result) | EvOther.
(** The messages [apply] looks at; the others are [LOther] *)
Inductive lmsg :=
| LTask
| LGeneration (tc : nat) (e : exec_event)
| LValidation (tc : nat) (e : exec_event)
| LEvaluation (tc : nat) (e : exec_event)
| LChecker (tc : nat) (e : exec_event)
| LScore (tc : nat) (score : f64) (message : string)
| LOther.
(** state.rs:75-99 *)
Inductive tstatus :=
| TPending | TGenerating | TGenerated | TValidating | TValidated | TSolving | TSolved | TChecking | TSuccess
| TFailed (message : string) | TError.
(** state.rs:102-114 *)
Record shared := Shared {
  sh_index : nat;
  sh_stop : bool;
  sh_last : option batch;
  sh_failing : option (case_data * string);
  sh_errored : option (case_data * string * exec_result)
}.
Definition shared0 : shared := Shared 0 false None None None.
(** state.rs:17-38; [u_batches]: the last one comes first *)
Record ui := Ui { u_batches : list (list tstatus); u_generated : nat; u_solved : nat }.
Definition ui0 : ui := Ui [] 0 0.

(** What [apply] does: the new states and whether it asks the executor to stop; or a panic, and whether the shared state
    was locked then *)
Inductive applied_res := AOk (u : ui) (s : shared) (stop : bool) | APanic (locked : bool).

(** state.rs:133-137 [set] *)
Definition set_status (size tc : nat) (st : tstatus) (u : ui) : option ui :=
  match u_batches u with
  | [] => None
  | b :: bs =>
    if decide (size = 0) then None
    else if decide (tc mod size < length b) then Some (Ui (<[tc mod size := st]> b :: bs) (u_generated u) (u_solved u))
    else None
  end.
Definition then_set (size tc : nat) (st : tstatus) (u : ui) (s : shared) : applied_res :=
  match set_status size tc st u with Some u => AOk u s false | None => APanic false end.
(** state.rs:154-163, 177-186: a testcase could not be made *)
Definition fail_case (size tc : nat) (message : string) (r : exec_result) (u : ui) (s : shared) : applied_res :=
  match set_status size tc TError u with
  | None => APanic false
  | Some u =>
    match sh_last s with
    | None => APanic true
    | Some b =>
      match b !! tc with
      | None => APanic true
      | Some d => AOk u (Shared (sh_index s) (sh_stop s) (sh_last s) (sh_failing s) (Some (d, message, r))) false
      end
    end
  end.
(** state.rs:132-230 [apply] *)
Definition apply_msg (size : nat) (u : ui) (s : shared) (m : lmsg) : applied_res :=
  match m with
  | LTask => AOk (Ui (replicate size TPending :: u_batches u) (u_generated u) (u_solved u)) s false
  | LGeneration tc EvStarted => then_set size tc TGenerating u s
  | LGeneration tc (EvDone r) =>
    let u := Ui (u_batches u) (S (u_generated u)) (u_solved u) in
    if is_success (res_status r) then then_set size tc TGenerated u s else fail_case size tc "Generator failed" r u s
  | LValidation tc EvStarted => then_set size tc TValidating u s
  | LValidation tc (EvDone r) =>
    if is_success (res_status r) then then_set size tc TValidated u s else fail_case size tc "Validator failed" r u s
  | LEvaluation tc EvStarted => then_set size tc TSolving u s
  | LEvaluation tc (EvDone r) =>
    let count u := Ui (u_batches u) (u_generated u) (S (u_solved u)) in
    if is_success (res_status r)
    then match set_status size tc TSolved u with Some u => AOk (count u) s false | None => APanic false end
    else AOk (count u) s false
  | LChecker tc EvStarted => then_set size tc TChecking u s
  | LScore tc score message =>
    if f64_eq score f64_one then then_set size tc TSuccess u s
    else match set_status size tc (TFailed message) u with
         | None => APanic false
         | Some u =>
           match sh_last s with
           | None => APanic true
           | Some b =>
             AOk u (Shared (sh_index s) true (sh_last s)
                      (match b !! tc with Some d => Some (d, message) | None => None end) (sh_errored s)) true
           end
         end
  | LGeneration _ EvOther | LValidation _ EvOther | LEvaluation _ EvOther | LChecker _ _ | LOther => AOk u s false
  end.

(** ** The threads *)
(** Where the main thread is; the number is the batch *)
Inductive phase :=
| PStart (i : nat)   (* mod.rs:119-132 *)
| PBuild (i : nat)   (* 136-140 *)
| PReady (i : nat)   (* 142-164 *)
| PEval (i : nat)    (* 165-180 *)
| PDrain (i : nat)   (* 182-199 *)
| PCheck (i : nat)   (* 201-203 *)
| PWait (i : nat)    (* 206-210 *)
| PReport (i : nat)  (* 212-258 *)
| PError (i : nat)   (* an error is returned *)
| PPanic (i : nat).
Definition batch_no (p : phase) : nat :=
  match p with
  | PStart i | PBuild i | PReady i | PEval i | PDrain i | PCheck i | PWait i | PReport i | PError i | PPanic i => i
  end.
Inductive ui_thread := UiRun (u : ui) | UiDone (u : ui) | UiCrash.
(** The queue of the UI (mod.rs:92); each message with the batch that sent it (not in the code) *)
Inductive qitem := QMsg (i : nat) (m : lmsg) | QStop.

Record sys := Sys {
  y_phase : phase;
  y_fwd : list lmsg;           (* the messages of the evaluation that are not forwarded yet *)
  y_queue : list qitem;
  y_ui : ui_thread;
  y_shared : shared;
  y_poisoned : bool;
  y_sender : option nat;       (* [current_executor_sender]: the batch it belongs to *)
  y_stopped : list nat;        (* the evaluations that were told to stop *)
  y_sent : list (nat * lmsg);  (* not in the code: what the evaluations sent *)
  y_applied : list (nat * lmsg) (* not in the code: what the UI took from its queue *)
}.
Definition sys0 : sys := Sys (PStart 0) [] [] (UiRun ui0) shared0 false None [] [] [].

Definition set_phase (p : phase) (y : sys) : sys :=
  Sys p (y_fwd y) (y_queue y) (y_ui y) (y_shared y) (y_poisoned y) (y_sender y) (y_stopped y) (y_sent y) (y_applied y).
Definition set_shared (s : shared) (y : sys) : sys :=
  Sys (y_phase y) (y_fwd y) (y_queue y) (y_ui y) s (y_poisoned y) (y_sender y) (y_stopped y) (y_sent y) (y_applied y).
Definition set_sender (o : option nat) (y : sys) : sys :=
  Sys (y_phase y) (y_fwd y) (y_queue y) (y_ui y) (y_shared y) (y_poisoned y) o (y_stopped y) (y_sent y) (y_applied y).
(** The evaluation of batch [i] sends a message *)
Definition send (i : nat) (m : lmsg) (y : sys) : sys :=
  Sys (y_phase y) (y_fwd y ++ [m]) (y_queue y) (y_ui y) (y_shared y) (y_poisoned y) (y_sender y) (y_stopped y)
    (y_sent y ++ [(i, m)]) (y_applied y).
Definition enqueue (q : qitem) (y : sys) : sys :=
  Sys (y_phase y) (y_fwd y) (y_queue y ++ [q]) (y_ui y) (y_shared y) (y_poisoned y) (y_sender y) (y_stopped y)
    (y_sent y) (y_applied y).
Definition set_fwd (l : list lmsg) (y : sys) : sys :=
  Sys (y_phase y) l (y_queue y) (y_ui y) (y_shared y) (y_poisoned y) (y_sender y) (y_stopped y) (y_sent y) (y_applied y).
(** mod.rs:72-80 [stop_evaluation] *)
Definition tell_stop (y : sys) : sys :=
  Sys (y_phase y) (y_fwd y) (y_queue y) (y_ui y) (y_shared y) (y_poisoned y) (y_sender y)
    (y_stopped y ++ match y_sender y with Some i => [i] | None => [] end) (y_sent y) (y_applied y).
(** mod.rs:96-98, one turn of the UI thread *)
Definition ui_turn (size i : nat) (m : lmsg) (q : list qitem) (u : ui) (y : sys) : sys :=
  match apply_msg size u (y_shared y) m with
  | AOk u s stop =>
    let y := Sys (y_phase y) (y_fwd y) q (UiRun u) s (y_poisoned y) (y_sender y) (y_stopped y) (y_sent y)
               (y_applied y ++ [(i, m)]) in
    if stop then tell_stop y else y
  | APanic locked =>
    Sys (y_phase y) (y_fwd y) q UiCrash (y_shared y) (y_poisoned y || locked) (y_sender y) (y_stopped y) (y_sent y)
      (y_applied y ++ [(i, m)])
  end.

(** The messages of the evaluation of a batch *)
Definition of_batch (b : batch) (m : lmsg) : Prop :=
  match m with
  | LTask => False
  | LGeneration tc _ | LValidation tc _ | LEvaluation tc _ | LChecker tc _ | LScore tc _ _ => is_Some (b !! tc)
  | LOther => True
  end.
Definition ended (p : phase) : bool := match p with PReport _ | PError _ | PPanic _ => true | _ => false end.

(** One step of some thread *)
Inductive step (B : nat -> batch) (size : nat) : sys -> sys -> Prop :=
(* the main thread *)
| step_set i y : y_phase y = PStart i -> y_poisoned y = false ->
    step B size y (set_phase (PBuild i)
      (set_shared (Shared i (sh_stop (y_shared y)) (Some (B i)) (sh_failing (y_shared y)) (sh_errored (y_shared y))) y))
| step_build i y : y_phase y = PBuild i -> step B size y (set_phase (PReady i) (send i LTask y))
| step_connect i y : y_phase y = PReady i -> step B size y (set_phase (PEval i) (set_sender (Some i) y))
| step_evaluated i y : y_phase y = PEval i -> step B size y (set_phase (PDrain i) (set_sender None y))
| step_joined i y : y_phase y = PDrain i -> y_fwd y = [] -> step B size y (set_phase (PCheck i) y)
| step_break i y : y_phase y = PCheck i -> y_poisoned y = false -> sh_stop (y_shared y) = true ->
    step B size y (set_phase (PWait i) (enqueue QStop y))
| step_next i y : y_phase y = PCheck i -> y_poisoned y = false -> sh_stop (y_shared y) = false ->
    step B size y (set_phase (PStart (S i)) y)
| step_report i u y : y_phase y = PWait i -> y_ui y = UiDone u -> y_poisoned y = false ->
    step B size y (set_phase (PReport i) y)
| step_ui_failed i y : y_phase y = PWait i -> y_ui y = UiCrash -> step B size y (set_phase (PError i) y)
| step_error i y : y_phase y = PStart i \/ y_phase y = PBuild i \/ y_phase y = PReady i \/ y_phase y = PEval i ->
    step B size y (set_phase (PError i) y)
| step_panic i y : y_phase y = PStart i \/ y_phase y = PEval i \/ y_phase y = PCheck i -> y_poisoned y = true ->
    step B size y (set_phase (PPanic i) y)
(* the evaluation, the thread that forwards its messages, the status of the executor *)
| step_send i m y : y_phase y = PEval i -> of_batch (B i) m -> step B size y (send i m y)
| step_forward i m l y : y_phase y = PReady i \/ y_phase y = PEval i \/ y_phase y = PDrain i -> y_fwd y = m :: l ->
    step B size y (enqueue (QMsg i m) (set_fwd l y))
| step_server_status i y : y_phase y = PEval i -> step B size y (enqueue (QMsg i LOther) y)
(* the UI *)
| step_ui i m q u y : ended (y_phase y) = false -> y_ui y = UiRun u -> y_queue y = QMsg i m :: q ->
    step B size y (ui_turn size i m q u y)
| step_ui_end q u y : ended (y_phase y) = false -> y_ui y = UiRun u -> y_queue y = QStop :: q ->
    step B size y (Sys (y_phase y) (y_fwd y) q (UiDone u) (y_shared y) (y_poisoned y) (y_sender y) (y_stopped y)
                     (y_sent y) (y_applied y)).
(** mod.rs:104-117: ctrl-c *)
Inductive interrupt : sys -> sys -> Prop :=
| interrupt_ctrl_c y : ended (y_phase y) = false -> y_poisoned y = false ->
    interrupt y (tell_stop (set_shared (Shared (sh_index (y_shared y)) true (sh_last (y_shared y))
                              (sh_failing (y_shared y)) (sh_errored (y_shared y))) y)).
Definition any_step (B : nat -> batch) (size : nat) (y y' : sys) : Prop := step B size y y' \/ interrupt y y'.

(** ** The report *)
(** A file system: the contents of the files, as characters *)
Definition files := gmap string (list N).
(** mod.rs:261-312 [copy_testcase]: the three paths and the new files, or an error *)
Definition copy_case (fs : files) (task : string) (d : case_data) : option (files * string * option string * option string) :=
  let dir := path_join task ("fuzz/bad-cases/seed-" +:+ pretty (cd_seed d)) in
  let input := path_join dir "input.txt" in
  let correct := path_join dir "correct-output.txt" in
  let failing := path_join dir "failing-output.txt" in
  match fs !! cd_input d with
  | None => None
  | Some c =>
    let fs := <[input := c]> fs in
    let '(fs, correct) := match fs !! cd_correct d with Some c => (<[correct := c]> fs, Some correct) | None => (fs, None) end in
    let '(fs, failing) := match fs !! cd_output d with Some c => (<[failing := c]> fs, Some failing) | None => (fs, None) end in
    Some (fs, input, correct, failing)
  end.

(** The length of a character in UTF-8 *)
Definition char_len (c : N) : nat :=
  if (c <? 128)%N then 1 else if (c <? 2048)%N then 2 else if (c <? 65536)%N then 3 else 4.
Definition text_len (l : list N) : nat := list_sum (map char_len l).
(** [&content[..n]]: a panic if the position is inside a character *)
Fixpoint cut_at (n : nat) (l : list N) : option (list N) :=
  match l with
  | [] => if decide (n = 0) then Some [] else None
  | c :: l =>
    if decide (n = 0) then Some []
    else if decide (char_len c <= n) then match cut_at (n - char_len c) l with Some l => Some (c :: l) | None => None end
    else None
  end.
(** mod.rs:325-332, what is printed of a file (before [trim_end]), and whether dots follow *)
Definition shown_text (l : list N) : option (list N * bool) :=
  if decide (256 < text_len l) then match cut_at 256 l with Some l => Some (l, true) | None => None end else Some (l, false).
