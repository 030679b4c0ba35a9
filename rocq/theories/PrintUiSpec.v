(** * PrintUiSpec: the messages that are one line, and what a line says *)
From Verif Require Import PrintUiModel.
From Coq Require Import Ascii String.
From stdpp Require Import list.

(** The name of a worker is on one line *)
Definition plain_status (s : ui_status) : Prop := match s with Started w => 10%N ∉ w | Finished _ e o => e = None /\ o = None | _ => True end.
Definition any_status (s : ui_status) : Prop := match s with Started w => 10%N ∉ w | _ => True end.
(** A score is a number: no blanks, no parenthesis *)
Definition number_text (t : text) : Prop := 10%N ∉ t /\ 32%N ∉ t /\ 41%N ∉ t.

(** The messages about an execution or a score of an IOI task, the output of the program not being captured *)
Definition one_line_message (m : message) : Prop :=
  match m with
  | Compilation _ s | Generation _ _ s | Validation _ _ s => plain_status s
  | Solution _ _ s | Evaluation _ _ _ s _ _ | Checker _ _ _ s => any_status s
  | SubtaskScore _ _ score norm => number_text score /\ number_text norm
  | TaskScore _ score => number_text score
  | _ => False
  end.

(** What a line says: all of the message, but not the captured output and, for a checker, how it finished *)
Definition said_status (s : ui_status) : ui_status := match s with Finished st _ _ => Finished st None None | s => s end.
Definition said (m : message) : message :=
  match m with
  | Compilation f s => Compilation f (said_status s)
  | Generation st tc s => Generation st tc (said_status s)
  | Validation st tc s => Validation st tc (said_status s)
  | Solution st tc s => Solution st tc (said_status s)
  | Evaluation st tc sol s p n => Evaluation st tc sol (said_status s) p n
  | Checker st tc sol s => Checker st tc sol (match s with Finished _ _ _ => Finished Success None None | Started _ => Started [] | s => s end)
  | m => m
  end.
