(** * HooksModel: which sanity checks are run, and how

    Models task-maker-format/src/sanity_checks.rs, ioi/sanity_checks/mod.rs and terry/sanity_checks/mod.rs
    [get_sanity_check_list], src/opt.rs [skip_sanity_checks_long_help] and the skip list of
    src/tools/find_bad_case/mod.rs.

    Simplifications: the crate inventory gives the registered checks in an order that is not specified: the theorems are
    for every order.  What a hook does is a parameter: it changes the state of the evaluation and may fail. *)
From Coq Require Import Ascii String.
From stdpp Require Import base list sorting strings.
Local Open Scope string_scope.
Local Open Scope list_scope.

(** sanity_checks.rs:12-25 [SanityCheckCategory] *)
Inductive category := CAttachments | CChecker | CIo | CSolutions | CStatement | CTask.
Global Instance category_eq_dec : EqDecision category.
Proof. solve_decision. Defined.
(** in the order of [derive(Ord)] *)
Definition categories : list category := [CAttachments; CChecker; CIo; CSolutions; CStatement; CTask].
(** sanity_checks.rs:41-50 [as_str] *)
Definition as_str (c : category) : string :=
  match c with
  | CAttachments => "Attachments" | CChecker => "Checker" | CIo => "Io"
  | CSolutions => "Solutions" | CStatement => "Statement" | CTask => "Task"
  end.
(** sanity_checks.rs:29-38 [purpose] *)
Definition purpose (c : category) : string :=
  match c with
  | CAttachments => "verifies the attachments" | CChecker => "verifies the checker" | CIo => "verifies the input/output files"
  | CSolutions => "verifies the solutions" | CStatement => "verifies the statement files"
  | CTask => "verifies general properties of the task"
  end.

(** What a check answers to [name] and [category] *)
Record check := Check { ck_name : string; ck_category : category }.
Global Instance check_eq_dec : EqDecision check.
Proof. solve_decision. Defined.
(** The checks registered with [make_sanity_check!] under ioi/sanity_checks: att.rs, checker.rs, io.rs, subtasks.rs, sol.rs, statement.rs, task.rs *)
Definition ioi_checks : list check := [
  Check "AttGraders" CAttachments; Check "AttTemplates" CAttachments; Check "AttSampleFiles" CAttachments;
  Check "AttSampleFilesValid" CAttachments; Check "AttWithNoCheck" CAttachments; Check "AttEndWithNewLine" CAttachments;
  Check "AttNoDirectory" CAttachments; Check "AttTemplatesShouldCompile" CAttachments;
  Check "FuzzCheckerWithJunkOutput" CChecker;
  Check "IOEndWithNewLine" CIo; Check "MissingSubtaskNames" CIo; Check "InvalidSubtaskName" CIo; Check "AllOutputsEqual" CIo;
  Check "SolGraders" CSolutions; Check "SolTemplateSymlink" CSolutions; Check "SolutionsWithNoChecks" CSolutions;
  Check "StatementSubtasks" CStatement; Check "StatementValid" CStatement; Check "StatementCompiled" CStatement; Check "StatementGit" CStatement;
  Check "TaskMaxScore" CTask; Check "BrokenSymlinks" CTask; Check "NoBitsStdCpp" CTask; Check "SubtaskDependencies" CTask;
  Check "EmptyTitle" CTask; Check "DeprecatedDescriptionInSubtask" CTask ].
(** terry/sanity_checks: checker.rs, statement.rs, task.rs *)
Definition terry_checks : list check := [ Check "FuzzChecker" CChecker; Check "StatementPresent" CStatement; Check "ValidatorPresent" CIo ].

(** ioi/sanity_checks/mod.rs:31-37, terry/sanity_checks/mod.rs:16-22 [get_sanity_check_list] *)
Definition enabled (skip : list string) (registered : list check) : list check :=
  List.filter (fun c => negb (bool_decide (ck_name c ∈ skip)) && negb (bool_decide (as_str (ck_category c) ∈ skip))) registered.
(** sanity_checks.rs:187-195 [get_sanity_check_list] *)
Definition all_checks (ioi terry : list check) : list (string * category) :=
  map (fun c => (ck_name c, ck_category c)) (enabled [] ioi) ++ map (fun c => (ck_name c, ck_category c)) (enabled [] terry).
(** find_bad_case/mod.rs:60-63: the skip list of find-bad-case *)
Definition bad_case_skip (ioi terry : list check) : list string := map fst (all_checks ioi terry).

(** opt.rs:193-202 of [skip_sanity_checks_long_help]: the categories in their order, with the sorted names *)
Definition str_le (a b : string) : Prop := String.leb a b = true.
Global Instance str_le_dec : RelDecision str_le.
Proof. unfold str_le. solve_decision. Defined.
Definition help_groups (ioi terry : list check) : list (category * list string) :=
  omap (fun c => match map fst (List.filter (fun x => bool_decide (snd x = c)) (all_checks ioi terry)) with
                 | [] => None
                 | l => Some (c, merge_sort str_le l)
                 end) categories.
(** opt.rs:201-202: the lines of a category *)
Definition help_lines (g : category * list string) : string :=
  as_str (fst g) +:+ " (" +:+ purpose (fst g) +:+ ")" +:+ String "010" ("- " +:+ String.concat ", " (snd g) +:+ String "010" (String "010" "")).

Section run.
  Context {St Er Dg : Type}.
  (** the [pre_hook] (or the [post_hook]) of the check with a name; [eval.add_diagnostic]: [false] is an error *)
  Context (hook : string -> St -> St * option Er) (add : Dg -> St -> St * bool) (failed : string -> Er -> Dg).
  (** sanity_checks.rs:146-159 [pre_hook], 163-177 [post_hook]: [false] is an error *)
  Fixpoint run_hooks (l : list check) (s : St) : St * bool :=
    match l with
    | [] => (s, true)
    | c :: l =>
      match hook (ck_name c) s with
      | (s, None) => run_hooks l s
      | (s, Some e) => match add (failed (ck_name c) e) s with
                       | (s, true) => run_hooks l s
                       | (s, false) => (s, false)
                       end
      end
    end.
End run.
(** sanity_checks.rs:153-157: the message *)
Definition failed_message (name e : string) : string := "Sanity check " +:+ name +:+ " failed: " +:+ e.
