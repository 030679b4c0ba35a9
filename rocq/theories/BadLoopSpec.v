(** * BadLoopSpec: what the search of find-bad-case must do *)
From Verif Require Import BadLoopModel.
From Coq Require Import Ascii String.
From stdpp Require Import base list.

(** The runs *)
Definition reach (B : nat -> batch) (size : nat) (y : sys) : Prop := rtc (any_step B size) sys0 y.
(** without ctrl-c *)
Definition reach_alone (B : nat -> batch) (size : nat) (y : sys) : Prop := rtc (step B size) sys0 y.
(** where the UI is never late: when the main thread decides whether to go on there is nothing left to show *)
Definition prompt_step (B : nat -> batch) (size : nat) (y y' : sys) : Prop :=
  any_step B size y y' /\ (forall i, y_phase y = PCheck i -> y_phase y' <> PCheck i -> y_queue y = []).
Definition reach_prompt (B : nat -> batch) (size : nat) (y : sys) : Prop := rtc (prompt_step B size) sys0 y.

(** The first [n + 1] batches are numbered as [BadCaseSpec.bt_only] says *)
Definition numbered (B : nat -> batch) (size n : nat) : Prop :=
  forall i tc, i <= n -> is_Some (B i !! tc) -> exists x, x < size /\ tc = i * size + x.

(** The testcase a message is about *)
Definition about (m : lmsg) : option nat :=
  match m with
  | LGeneration tc _ | LValidation tc _ | LEvaluation tc _ | LChecker tc _ | LScore tc _ _ => Some tc
  | LTask | LOther => None
  end.
(** The solution fails on testcase [tc]: the score is not exactly one (a NaN is not) *)
Definition failing_score (m : lmsg) (tc : nat) (message : string) : Prop :=
  exists score, m = LScore tc score message /\ f64_eq score f64_one = false.
Definition fails (m : lmsg) : Prop := exists tc message, failing_score m tc message.

(** What a message makes the UI show for its testcase *)
Definition shows (m : lmsg) : option tstatus :=
  match m with
  | LGeneration _ EvStarted => Some TGenerating
  | LGeneration _ (EvDone r) => Some (if decide (res_status r = Success) then TGenerated else TError)
  | LValidation _ EvStarted => Some TValidating
  | LValidation _ (EvDone r) => Some (if decide (res_status r = Success) then TValidated else TError)
  | LEvaluation _ EvStarted => Some TSolving
  | LEvaluation _ (EvDone r) => if decide (res_status r = Success) then Some TSolved else None
  | LChecker _ EvStarted => Some TChecking
  | LScore _ score message => Some (if f64_eq score f64_one then TSuccess else TFailed message)
  | _ => None
  end.
(** The last status that the messages give to a testcase *)
Definition status_after (l : list (nat * lmsg)) (tc : nat) : tstatus :=
  default TPending (last (omap (fun jm => if decide (about (snd jm) = Some tc) then shows (snd jm) else None) l)).
(** The testcase could not be made *)
Definition broken (m : lmsg) (tc : nat) (message : string) (r : exec_result) : Prop :=
  res_status r <> Success /\
  (m = LGeneration tc (EvDone r) /\ message = "Generator failed" \/ m = LValidation tc (EvDone r) /\ message = "Validator failed").

(** The messages the UI looks at *)
Definition noisy (m : lmsg) : bool := match m with LOther => true | _ => false end.
Definition heard (l : list (nat * lmsg)) : list (nat * lmsg) := filter (fun jm => noisy (snd jm) = false) l.
(** How many messages of a kind *)
Definition count (f : lmsg -> bool) (l : list (nat * lmsg)) : nat := length (filter (fun jm => f (snd jm) = true) l).
Definition gen_done (m : lmsg) : bool := match m with LGeneration _ (EvDone _) => true | _ => false end.
Definition eval_done (m : lmsg) : bool := match m with LEvaluation _ (EvDone _) => true | _ => false end.
