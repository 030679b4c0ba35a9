(** * JunkModel: the sanity checks that fuzz the checker (task-maker-format/src/ioi/sanity_checks/checker.rs,
      task-maker-format/src/terry/sanity_checks/checker.rs)

    Definitions only.  The executions are described by what the check reads and writes: how they are built is the object
    of C67 and C70.  Simplifications: a diagnostic is what it is about and what it carries, not its sentence; sending a
    diagnostic always succeeds; the list of the bad outputs of the data directory is a parameter. *)
From Coq Require Import NArith.
From stdpp Require Export gmap strings.
From Verif Require Export ScoreModel.

(** checker.rs:15-22 [JUNK_OUTPUTS] *)
Definition byte_range (a b : nat) : list N := N.of_nat <$> seq a (S b - a).
Definition junk_outputs : list (string * list N) :=
  [("empty file", []);
   ("bytes from 0 to 255", byte_range 0 255);
   ("ASCII from 32 to 127", byte_range 32 127);
   ("wibble monster", [119; 105; 98; 98; 108; 101; 32; 109; 111; 110; 115; 116; 101; 114]%N)].
(** The parts of a task the check reads: the type, and of each testcase the files that were set when the DAG was built *)
Inductive task_kind := KBatch (c : checker) | KCommunication.
Record junk_case := JunkCase { jc_id : testcase_id; jc_input : option file_uuid; jc_output : option file_uuid }.
(** An execution of the checker: the junk, its content (given as the output of the contestant), the input, the official output *)
Record junk_check := JunkCheck { jk_name : string; jk_content : list N; jk_input : file_uuid; jk_official : file_uuid }.
(** checker.rs:36-103 [pre_hook]; the testcases are in the iteration order of the map *)
Definition junk_plan (k : task_kind) (cases : list junk_case) : list junk_check :=
  match k with
  | KBatch CustomChecker =>
    match find (fun c => bool_decide (is_Some (jc_input c)) && bool_decide (is_Some (jc_output c))) cases with
    | None => []
    | Some c =>
      match jc_input c, jc_output c with
      | Some i, Some o => (fun j => JunkCheck j.1 j.2 i o) <$> junk_outputs
      | _, _ => []
      end
    end
  | _ => []
  end.
(** ioi/dag/checker.rs:101-145, checker.rs:82-90: the error that is sent, and about which junk *)
Inductive junk_diag :=
  | JCrashed (junk : string) (s : status) (stderr : list N)
  | JInvalid (junk : string) (stdout : list N)
  | JScored (junk : string) (score : f64) (message : string).
Section junk.
  (** [parse]: [String::from_utf8_lossy], [trim] and [parse::<f64>]; [text]: [from_utf8_lossy] and [trim] *)
  Context (parse : list N -> option f64) (text : list N -> string).
  (** The callbacks of an execution that is done; [None]: the error of an output that was not captured *)
  Definition junk_done (k : junk_check) (r : exec_result) : option (list junk_diag) :=
    stdout ← res_stdout r; stderr ← res_stderr r;
    if is_success (res_status r) then
      match parse stdout with
      | None => Some [JInvalid (jk_name k) stdout]
      | Some score => if negb (f64_eq score f64_zero) then Some [JScored (jk_name k) score (translate (text stderr))] else Some []
      end
    else Some [JCrashed (jk_name k) (res_status r) stderr].
  (** What happens to the executions ([None]: skipped), in the order in which it happens *)
  Fixpoint junk_run (l : list (junk_check * option exec_result)) : option (list junk_diag) :=
    match l with
    | [] => Some []
    | (_, None) :: l => junk_run l
    | (k, Some r) :: l => d ← junk_done k r; ds ← junk_run l; Some (d ++ ds)
    end.
End junk.

(** ** Terry *)
(** checker.rs:68-112: the messages; [outcome]: the error of the parser of JSON *)
Inductive bad_diag :=
  | BGenerator (s : status) (stderr : option (list N))
  | BOutcome (output : string) (e : string)
  | BCrashed (output : string) (s : status) (stderr : option (list N)).
Section bad.
  (** serde_json::from_slice as an outcome, and the message of its error *)
  Context {outcome : Type} (from_json : list N -> outcome + string).
  (** checker.rs:47-65: the generator is done *)
  Definition bad_generated (r : exec_result) : list bad_diag :=
    if is_success (res_status r) then [] else [BGenerator (res_status r) (res_stderr r)].
  (** terry/dag/mod.rs:247-252 and checker.rs:79-88, then checker.rs:94-109: the checker is done *)
  Definition bad_done (name : string) (r : exec_result) : option (list bad_diag) :=
    stdout ← res_stdout r;
    Some ((match from_json stdout with inl _ => [] | inr e => [BOutcome name e] end) ++
          (if is_success (res_status r) then [] else [BCrashed name (res_status r) (res_stderr r)])).
  (** What happens, in the order in which it happens *)
  Inductive bad_event := EGenerated (r : exec_result) | EChecked (name : string) (r : option exec_result).
  Definition bad_event_diags (e : bad_event) : option (list bad_diag) :=
    match e with
    | EGenerated r => Some (bad_generated r)
    | EChecked _ None => Some []
    | EChecked n (Some r) => bad_done n r
    end.
  Definition bad_run (l : list bad_event) : option (list bad_diag) := @concat _ <$> mapM bad_event_diags l.
End bad.
