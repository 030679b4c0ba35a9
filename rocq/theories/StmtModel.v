(** * StmtModel: the checks of the statement

    Models task-maker-format/src/ioi/sanity_checks/statement.rs.

    Simplifications:
    - The expressions are those of [RegexModel]; [\d] is an ASCII digit, and the code spans of the diagnostics are not modelled.
    - A diagnostic has its numbers and the place of the booklet, not its text.
    - A number of subtask is a natural number: the addition at statement.rs:57 does not overflow.
    - What the checks after the evaluation see of the disk is in [pdf_disk]. *)
From Verif Require Import FloatModel SanityModel.
From Verif Require Export LangModel BookletModel AttModel RegexModel.
From Coq Require Import Ascii String NArith ZArith.
From stdpp Require Import base list sorting.
Local Open Scope nat_scope.

(** ** The subtasks in the text *)
(** statement.rs:288-297 [ExtractedSubtask] *)
Record extracted := Extracted { x_id : N; x_score : option f64 }.
(** [str::parse::<f64>] of digits *)
Definition parse_f64 (l : text) : f64 := f64_of_Z (Z.of_N (number_of l)).
(** statement.rs:306-310 *)
Definition lit (s : string) (k : re) : re := RText (chars s) k.
Definition not_brace (c : ascii) : bool := negb (bool_decide (c = "}"%char)).
Definition is_blank (c : ascii) : bool := bool_decide (c = " "%char).
Definition phantom : re := RSeq (RChar backslash) (lit "phantom{" (RSeq (RPlus not_brace) (RChar "}"%char))).
Definition oii_points : re := RGroup 3 (RSeq (ROpt phantom) (RSeq (RGroup 4 (RPlus is_digit)) (RStar dot))).
Definition oii_body : re :=
  RSeq (RChar "{"%char) (RSeq (RGroup 1 (lit "Subtask " (RGroup 2 (RPlus is_digit)))) (RSeq (RChar "}"%char) (RSeq (RStar is_blank) (RSeq (RChar "["%char) (RSeq oii_points (RChar "]"%char)))))).
(** statement.rs:348 *)
Definition new_body : re := RSeq (RChar backslash) (lit "subtask" REmpty).
Definition new_re : re := RGroup 1 (line_re new_body).
(** statement.rs:375-378 *)
Definition ois_body : re :=
  RSeq (RChar backslash) (RSeq (RAlt (lit "OISubtask" REmpty) (lit "IIOTsubtask" REmpty)) (RSeq (RChar "{"%char) (RSeq (RGroup 1 (RPlus is_digit))
    (lit "}{" (RSeq (RPlus is_digit) (lit "}{" (RSeq (RPlus dot) (RChar "}"%char)))))))).
Definition or_none {A} (l : list A) : option (list A) := match l with [] => None | _ => Some l end.
(** statement.rs:304-342 [check_subtasks_oii] *)
Definition oii_item (c : caps) : option extracted :=
  match capture 2 c, capture 4 c with
  | Some n, Some s => match parse_u32 n with Some i => Some (Extracted i (Some (parse_f64 s))) | None => None end
  | _, _ => None
  end.
Definition check_subtasks_oii (t : text) : option (list extracted) :=
  match mapM oii_item (captures_iter (line_re oii_body) t) with Some l => or_none l | None => None end.
(** statement.rs:346-369 [check_subtasks_oii_new] *)
Definition check_subtasks_oii_new (t : text) : option (list extracted) :=
  or_none (imap (fun i _ => Extracted (N.of_nat i) None) (captures_iter new_re t)).
(** statement.rs:374-403 [check_subtasks_ois] *)
Definition check_subtasks_ois (t : text) : option (list extracted) :=
  or_none (imap (fun i c => Extracted (N.of_nat i) (match capture 1 c with Some s => Some (parse_f64 s) | None => None end)) (captures_iter (line_re ois_body) t)).
(** statement.rs:407-411 [extract_subtasks] *)
Definition extract_subtasks (t : text) : option (list extracted) :=
  match check_subtasks_oii t with
  | Some l => Some l
  | None => match check_subtasks_oii_new t with Some l => Some l | None => check_subtasks_ois t end
  end.

(** ** StatementSubtasks *)
Inductive stmt_diag :=
  | SNumber (booklet : nat) (expected found : N)
  | SScore (booklet : nat) (subtask : N) (expected found : f64)
  | SCount (booklet : nat) (expected found : nat).
(** statement.rs:31-41 *)
Definition subtask_le (a b : N * f64) : Prop := (fst a <= fst b)%N.
Global Instance subtask_le_dec : RelDecision subtask_le.
Proof. unfold subtask_le. solve_decision. Defined.
Definition expected_subtasks (sts : list (N * f64)) : list (N * f64) := merge_sort subtask_le sts.
(** statement.rs:56-96: the loop stops at the first error *)
Fixpoint compare_subtasks (k : nat) (base : N) (es : list (N * f64)) (xs : list extracted) : list stmt_diag :=
  match es, xs with
  | e :: es, x :: xs =>
    if decide ((fst e + base)%N = x_id x)
    then match x_score x with
         | Some s => if abs_diff_eq (snd e) s then compare_subtasks k base es xs else [SScore k (x_id x) (snd e) s]
         | None => compare_subtasks k base es xs
         end
    else [SNumber k (fst e + base) (x_id x)]
  | _, _ => []
  end.
(** statement.rs:55 *)
Definition first_number (xs : list extracted) : N := match xs with x :: _ => if decide (x_id x = 1%N) then 1%N else 0%N | [] => 0%N end.
(** statement.rs:49-110, for a booklet *)
Definition check_statement (k : nat) (es : list (N * f64)) (source : text) : list stmt_diag :=
  match extract_subtasks source with
  | None => []
  | Some xs => compare_subtasks k (first_number xs) es xs ++ (if decide (length es = length xs) then [] else [SCount k (length es) (length xs)])
  end.
(** statement.rs:30-112 [StatementSubtasks::pre_hook] *)
Definition statement_subtasks (sts : list (N * f64)) (booklets : list booklet) : list stmt_diag :=
  concat (imap (fun k b => match bk_statements b with [s] => check_statement k (expected_subtasks sts) (statement_tex s) | _ => [] end) booklets).

(** ** The statement that cms uses *)
(** The file that is opened, if it can be; [pd_git]: the output of git ls-files, [None] if it could not run or failed *)
Record pdf_disk := PdfDisk {
  pd_exists : fpath -> bool;
  pd_link : fpath -> bool;
  pd_read : fpath -> option text;
  pd_canon : fpath -> option fpath;
  pd_git : option text
}.
Inductive pdf_diag :=
  | PMissing (help : option string)      (* statement.rs:133-144 *)
  | PInvalid (p : fpath)                 (* statement.rs:163-166 *)
  | PBroken (p : fpath)                  (* statement.rs:172-175 *)
  | PNotCompiled (p : fpath) (l : list fpath)   (* statement.rs:226-235 *)
  | PNotInGit (p : fpath).               (* statement.rs:277-280 *)
(** statement.rs:416-424 [find_statement_pdf] *)
Definition find_statement_pdf (d : pdf_disk) (task : fpath) : option fpath :=
  List.find (fun p => pd_exists d p || pd_link d p) [child (child task "statement") "statement.pdf"; child (child task "testo") "testo.pdf"].
(** statement.rs:128-182 [StatementValid::post_hook]; the second result: the hook failed (or panicked, statement.rs:138) *)
Definition statement_valid (d : pdf_disk) (task : fpath) (booklets : list booklet) : list pdf_diag * bool :=
  match find_statement_pdf d task with
  | None => match booklets with
            | [] => ([PMissing None], false)
            | b :: _ => match file_name (bk_dest b) with Some n => ([PMissing (Some n)], false) | None => ([], true) end
            end
  | Some p =>
    if pd_exists d p
    then match pd_read d p with
         | None => ([], true)
         | Some t => if decide (take 4 t = chars "%PDF") then ([], false) else ([PInvalid (path_of task p)], false)
         end
    else if pd_link d p then ([PBroken (path_of task p)], false) else ([], false)
  end.
(** statement.rs:201-237 [StatementCompiled::post_hook] *)
Definition statement_compiled (d : pdf_disk) (task : fpath) (booklets : list booklet) : list pdf_diag :=
  match booklets with
  | [] => []
  | _ =>
    match find_statement_pdf d task with
    | None => []
    | Some p =>
      match pd_canon d p with
      | None => []
      | Some target =>
        let dests := omap (fun b => pd_canon d (bk_dest b)) booklets in
        if decide (target ∈ dests) then [] else [PNotCompiled (path_of task p) (map (path_of task) dests)]
      end
    end
  end.
(** statement.rs:256-284 [StatementGit::post_hook] *)
Definition nul : ascii := "000"%char.
Definition statement_git (d : pdf_disk) (task : fpath) : list pdf_diag :=
  match find_statement_pdf d task with
  | None => []
  | Some p =>
    let p := path_of task p in
    match pd_git d with
    | None | Some [] => []
    | Some out => if decide (chars (show_path p) ∈ split_on nul out) then [] else [PNotInGit p]
    end
  end.
