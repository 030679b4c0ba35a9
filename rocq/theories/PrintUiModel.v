(** * PrintUiModel: what the print UI writes for each message (task-maker-format/src/ui/print.rs)

    Definitions only.  A text is a list of code points.  Simplifications:
    - Colors are left out.  The paths are valid UTF-8.
    - [plain i c]: the character [c] at the position [i] of a string is written as it is by [char::escape_debug] (the
      tables of printable characters and of grapheme extenders).
    - Scores, workers and the text of errors are texts.
    - The messages that are tables ([ServerStatus], [IOITask], [Diagnostic], [TerryTask], [TerrySolutionOutcome]) are
      left out; the state that is kept beside what is printed is in [UiStateModel]. *)
From Coq Require Import Ascii String DecimalN HexadecimalN.
From stdpp Require Import list.

Definition text := list N.
Definition str (s : string) : text := map N_of_ascii (list_ascii_of_string s).
Global Arguments str : simpl never.

(** Display of an unsigned number *)
Fixpoint decimal_text (d : Decimal.uint) : text :=
  match d with
  | Decimal.Nil => []
  | Decimal.D0 d => 48%N :: decimal_text d | Decimal.D1 d => 49%N :: decimal_text d | Decimal.D2 d => 50%N :: decimal_text d
  | Decimal.D3 d => 51%N :: decimal_text d | Decimal.D4 d => 52%N :: decimal_text d | Decimal.D5 d => 53%N :: decimal_text d
  | Decimal.D6 d => 54%N :: decimal_text d | Decimal.D7 d => 55%N :: decimal_text d | Decimal.D8 d => 56%N :: decimal_text d
  | Decimal.D9 d => 57%N :: decimal_text d
  end.
Definition dec (n : N) : text := decimal_text (N.to_uint n).
(** the digits of the escape of a character, in lower case *)
Fixpoint hexadecimal_text (d : Hexadecimal.uint) : text :=
  match d with
  | Hexadecimal.Nil => []
  | Hexadecimal.D0 d => 48%N :: hexadecimal_text d | Hexadecimal.D1 d => 49%N :: hexadecimal_text d
  | Hexadecimal.D2 d => 50%N :: hexadecimal_text d | Hexadecimal.D3 d => 51%N :: hexadecimal_text d
  | Hexadecimal.D4 d => 52%N :: hexadecimal_text d | Hexadecimal.D5 d => 53%N :: hexadecimal_text d
  | Hexadecimal.D6 d => 54%N :: hexadecimal_text d | Hexadecimal.D7 d => 55%N :: hexadecimal_text d
  | Hexadecimal.D8 d => 56%N :: hexadecimal_text d | Hexadecimal.D9 d => 57%N :: hexadecimal_text d
  | Hexadecimal.Da d => 97%N :: hexadecimal_text d | Hexadecimal.Db d => 98%N :: hexadecimal_text d
  | Hexadecimal.Dc d => 99%N :: hexadecimal_text d | Hexadecimal.Dd d => 100%N :: hexadecimal_text d
  | Hexadecimal.De d => 101%N :: hexadecimal_text d | Hexadecimal.Df d => 102%N :: hexadecimal_text d
  end.
Definition hex (n : N) : text := hexadecimal_text (N.to_hex_uint n).

Section debug.
Context (plain : nat -> N -> bool).
(** [char::escape_debug]; [single]: a single quote is escaped *)
Definition escape (single : bool) (i : nat) (c : N) : text :=
  if decide (c = 0%N) then [92; 48]%N
  else if decide (c = 9%N) then [92; 116]%N
  else if decide (c = 13%N) then [92; 114]%N
  else if decide (c = 10%N) then [92; 110]%N
  else if decide (c = 34%N) then [92; 34]%N
  else if decide (c = 92%N) then [92; 92]%N
  else if decide (c = 39%N) then (if single then [92; 39]%N else [39]%N)
  else if plain i c then [c]
  else [92; 117; 123]%N ++ hex c ++ [125]%N.
Fixpoint escapes (single : bool) (i : nat) (s : text) : text :=
  match s with [] => [] | c :: s => escape single i c ++ escapes single (S i) s end.
(** [{:?}] of a path and of a string *)
Definition dbg_path (s : text) : text := 34%N :: escapes true 0 s ++ [34%N].
Definition dbg_str (s : text) : text := 34%N :: escapes false 0 s ++ [34%N].

(** dag/src/execution.rs:221-239, with the derived [Debug] *)
Inductive exec_status :=
  | Success | ReturnCode (n : N) | Signal (n : N) (name : text) | TimeLimit | SysTimeLimit | WallTimeLimit | MemoryLimit
  | InternalError (e : text).
Definition dbg_status (s : exec_status) : text :=
  match s with
  | Success => str "Success"
  | ReturnCode n => str "ReturnCode(" ++ dec n ++ str ")"
  | Signal n name => str "Signal(" ++ dec n ++ str ", " ++ dbg_str name ++ str ")"
  | TimeLimit => str "TimeLimitExceeded"
  | SysTimeLimit => str "SysTimeLimitExceeded"
  | WallTimeLimit => str "WallTimeLimitExceeded"
  | MemoryLimit => str "MemoryLimitExceeded"
  | InternalError e => str "InternalError(" ++ dbg_str e ++ str ")"
  end.

(** ui/mod.rs [UIExecutionStatus]; of the result: its status, stderr and stdout (after [from_utf8_lossy] and [trim]) *)
Inductive ui_status := Pending | Started (worker : text) | Finished (s : exec_status) (stderr stdout : option text) | Skipped.

(** ui/ui_message.rs *)
Inductive message :=
  | Stop
  | Solutions (paths : list text)
  | Compilation (file : text) (s : ui_status)
  | Generation (subtask testcase : N) (s : ui_status)
  | Validation (subtask testcase : N) (s : ui_status)
  | Solution (subtask testcase : N) (s : ui_status)
  | Evaluation (subtask testcase : N) (solution : text) (s : ui_status) (part num_parts : N)
  | Checker (subtask testcase : N) (solution : text) (s : ui_status)
  | TestcaseScore (subtask testcase : N) (solution score msg : text)
  | SubtaskScore (subtask : N) (solution score normalized : text)
  | TaskScore (solution score : text)
  | Booklet (name : text) (s : ui_status)
  | BookletDependency (booklet name : text) (step num_steps : N) (s : ui_status)
  | TerryGeneration (solution : text) (seed : N) (s : ui_status)
  | TerryValidation (solution : text) (s : ui_status)
  | TerrySolution (solution : text) (s : ui_status)
  | TerryChecker (solution : text) (s : ui_status).

(** print.rs:33-43 [write_status] *)
Definition write_status (s : ui_status) : text :=
  match s with
  | Pending => str "[PENDING] "
  | Started _ => str "[STARTED] "
  | Finished _ _ _ => str "[DONE]    "
  | Skipped => str "[SKIPPED] "
  end.
(** print.rs:46-66 [write_status_details], [write_execution_status] *)
Definition details (s : ui_status) : text :=
  match s with
  | Pending => []
  | Started worker => str "Worker: " ++ worker
  | Finished st _ _ => str "[" ++ dbg_status st ++ str "]"
  | Skipped => []
  end.
(** print.rs:69-71 [write_message] *)
Definition write_message (t : text) : text := t ++ replicate (80 - length t) 32%N.

(** The captured output of an execution *)
Definition captured (title : text) (what : text) (t : option text) : text :=
  match t with Some t => 10%N :: title ++ what ++ 10%N :: t | None => [] end.
Definition stderr_of (s : ui_status) : option text := match s with Finished _ e _ => e | _ => None end.
Definition stdout_of (s : ui_status) : option text := match s with Finished _ _ o => o | _ => None end.

(** print.rs:76-344 [on_message], line numbers of the arms *)
Definition on_message (m : message) : text :=
  match m with
  | Stop => []                                                                                           (* 79 *)
  | Solutions l => str "[SOLUTIONS] Solutions that will be evaluated:" ++ [10%N] ++ (l ≫= fun p => str "  - " ++ p ++ [10%N])   (* 93 *)
  | Compilation f s =>                                                                                   (* 99 *)
      write_status s ++ write_message (str "Compilation of " ++ dbg_path f ++ str " ") ++ details s ++
      captured (str "[STDERR]  Compilation stderr of ") (dbg_path f) (stderr_of s) ++
      captured (str "[STDOUT]  Compilation stdout of ") (dbg_path f) (stdout_of s)
  | Generation st tc s =>                                                                                (* 129 *)
      write_status s ++ write_message (str "Generation of testcase " ++ dec tc ++ str " of subtask " ++ dec st ++ str " ") ++ details s ++
      captured (str "[STDERR]  Generation stderr of testcase ") (dec tc ++ str " of subtask " ++ dec st) (stderr_of s)
  | Validation st tc s =>                                                                                (* 151 *)
      write_status s ++ write_message (str "Validation of testcase " ++ dec tc ++ str " of subtask " ++ dec st ++ str " ") ++ details s ++
      captured (str "[STDERR]  Validation stderr of testcase ") (dec tc ++ str " of subtask " ++ dec st) (stderr_of s)
  | Solution st tc s =>                                                                                  (* 173 *)
      write_status s ++ write_message (str "Solution of testcase " ++ dec tc ++ str " of subtask " ++ dec st ++ str " ") ++ details s
  | Evaluation st tc sol s part num =>                                                                   (* 185 *)
      write_status s ++ write_message (str "Evaluation of " ++ dbg_path sol ++ str " of testcase " ++ dec tc ++ str " of subtask " ++ dec st ++
        str " (part " ++ dec (part + 1) ++ str " of " ++ dec num ++ str ") ") ++ details s
  | Checker st tc sol s =>                                                                               (* 204 *)
      write_status s ++ write_message (str "Checking output of " ++ dbg_path sol ++ str " of testcase " ++ dec tc ++ str " of subtask " ++ dec st ++ str " ")
  | TestcaseScore st tc sol score msg =>                                                                 (* 216 *)
      str "[TESTCAS] " ++ write_message (str "Solution " ++ dbg_path sol ++ str " scored " ++ score ++ str " on testcase " ++ dec tc ++
        str " of subtask " ++ dec st ++ str ": " ++ msg)
  | SubtaskScore st sol score norm =>                                                                    (* 229 *)
      str "[SUBTASK] " ++ write_message (str "Solution " ++ dbg_path sol ++ str " scored " ++ score ++ str " on subtask " ++ dec st ++
        str " (normalized score " ++ norm ++ str ")")
  | TaskScore sol score => str "[TASK]    " ++ write_message (str "Solution " ++ dbg_path sol ++ str " scored " ++ score ++ str " ")   (* 241 *)
  | Booklet name s => write_status s ++ write_message (str "Compilation of booklet " ++ name)            (* 245 *)
  | BookletDependency booklet name step num s =>                                                         (* 249 *)
      write_status s ++ write_message (str "Compilation of dependency " ++ name ++ str " of booklet " ++ booklet ++ str " (step " ++ dec (step + 1) ++
        str " of " ++ dec num ++ str ")")
  | TerryGeneration sol seed s =>                                                                        (* 270 *)
      write_status s ++ write_message (str "Generation of input for " ++ sol ++ str " with seed " ++ dec seed ++ str " ") ++ details s
  | TerryValidation sol s => write_status s ++ write_message (str "Validation of input for " ++ sol ++ str " ") ++ details s   (* 283 *)
  | TerrySolution sol s => write_status s ++ write_message (str "Solving input for " ++ sol ++ str " ") ++ details s   (* 288 *)
  | TerryChecker sol s => write_status s ++ write_message (str "Checking output of " ++ sol ++ str " ") ++ details s   (* 293 *)
  end ++ [10%N].                                                                                         (* 343: the last println *)

(** What is printed for the messages of an evaluation *)
Definition printed (h : list message) : text := h ≫= on_message.
End debug.
