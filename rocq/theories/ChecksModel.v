(** * ChecksModel: task-maker-format/src/solution.rs (checks of solutions), task-maker-diagnostics/src/span.rs,
      src/tools/add_solution_checks.rs

    Definitions only.

    - A text is the list of its characters (Unicode code points).  The code counts offsets and lengths in bytes, the model in
      characters: they are only compared with each other.
    - The regular expressions are replaced by the functions that compute their (leftmost, greedy) matches. *)
From stdpp Require Export list gmap strings sorting.

Notation text := (list N).
Fixpoint chars (s : string) : text := match s with EmptyString => [] | String c s => Ascii.N_of_ascii c :: chars s end.
Definition nl : N := 10%N.
Definition cr : N := 13%N.
Definition space : N := 32%N.

(** solution.rs:106-125 [TestcaseEvaluationResult] *)
Inductive outcome := OAccepted | OPartial | OWrongAnswer | OTimeLimit | OWallTime | OMemory | ORuntimeError.
Global Instance outcome_eq_dec : EqDecision outcome.
Proof. solve_decision. Defined.
(** solution.rs:127-139 [proj] *)
Definition proj (o : outcome) : Z :=
  match o with
  | OAccepted => 2 | OPartial => 1 | OWrongAnswer => 0 | OTimeLimit => 0 | OWallTime => 0 | OMemory => 0 | ORuntimeError => 0
  end.
(** solution.rs:141-150 [partial_cmp] *)
Definition outcome_cmp (a b : outcome) : option comparison :=
  if decide (proj a > proj b)%Z then Some Gt
  else if decide (proj a < proj b)%Z then Some Lt
  else if decide (proj a = proj b /\ a = b) then Some Eq
  else None.
Definition outcome_lt (a b : outcome) : bool := match outcome_cmp a b with Some Lt => true | _ => false end.
(** [self as u32] *)
Definition outcome_index (o : outcome) : nat :=
  match o with OAccepted => 0 | OPartial => 1 | OWrongAnswer => 2 | OTimeLimit => 3 | OWallTime => 4 | OMemory => 5 | ORuntimeError => 6 end.

(** solution.rs:161-180 [SolutionCheckResult] *)
Inductive check_kind := KAccepted | KPartialScore | KWrongAnswer | KTimeLimit | KWallTime | KMemory | KRuntimeError | KZero.
Global Instance check_kind_eq_dec : EqDecision check_kind.
Proof. solve_decision. Defined.
(** solution.rs:203-214 [sorted_all] *)
Definition sorted_all : list check_kind := [KAccepted; KPartialScore; KWrongAnswer; KTimeLimit; KWallTime; KMemory; KRuntimeError; KZero].
(** solution.rs:217-228 [as_str] *)
Definition as_str (k : check_kind) : string :=
  match k with
  | KAccepted => "accepted" | KPartialScore => "partial-score" | KWrongAnswer => "wrong-answer" | KTimeLimit => "time-limit-exceeded"
  | KWallTime => "wall-time-limit-exceeded" | KMemory => "memory-limit-exceeded" | KRuntimeError => "runtime-error" | KZero => "zero"
  end.
(** solution.rs:182-199 [from_str] *)
Definition from_str (s : text) : option check_kind :=
  if decide (s = chars "accepted") then Some KAccepted
  else if decide (s = chars "partial-score") then Some KPartialScore
  else if decide (s = chars "wrong-answer") then Some KWrongAnswer
  else if decide (s = chars "time-limit-exceeded") then Some KTimeLimit
  else if decide (s = chars "wall-time-limit-exceeded") then Some KWallTime
  else if decide (s = chars "memory-limit-exceeded") then Some KMemory
  else if decide (s = chars "runtime-error") then Some KRuntimeError
  else if decide (s = chars "zero") then Some KZero
  else None.
(** solution.rs:274-295 [minimals] *)
Definition minimals (k : check_kind) : list outcome :=
  match k with
  | KAccepted => [OAccepted] | KPartialScore => [OPartial] | KWrongAnswer => [OWrongAnswer] | KTimeLimit => [OTimeLimit]
  | KWallTime => [OWallTime] | KMemory => [OMemory] | KRuntimeError => [ORuntimeError]
  | KZero => [OWrongAnswer; OTimeLimit; OWallTime; OMemory; ORuntimeError]
  end.
Definition contains (l : list outcome) (o : outcome) : bool := bool_decide (o ∈ l).
(** solution.rs:247-271 [check]: the loop over the outcomes ... *)
Fixpoint check_loop (k : check_kind) (outcomes l : list outcome) : bool :=
  match l with
  | [] => false
  | o :: l =>
    if existsb (fun o' => outcome_lt o' o) outcomes then check_loop k outcomes l
    else if contains (minimals k) o then true
    else check_loop k outcomes l
  end.
(** ... and the rest *)
Definition check (k : check_kind) (outcomes : list outcome) : bool :=
  if check_loop k outcomes outcomes then true
  else if bool_decide (outcomes = []) && contains (minimals k) OAccepted then true
  else false.

(** ** add_solution_checks.rs *)
(** [sort_by_key(|&res| res as u32)]; the keys are distinct, so the sort is that of the values *)
Definition index_le (a b : outcome) : Prop := outcome_index a <= outcome_index b.
Global Instance index_le_dec : RelDecision index_le.
Proof. intros a b. unfold index_le. apply _. Defined.
(** [Vec::dedup] *)
Fixpoint dedup (l : list outcome) : list outcome :=
  match l with
  | [] => []
  | x :: l => match dedup l with [] => [x] | y :: l' => if decide (x = y) then y :: l' else x :: y :: l' end
  end.
(** add_solution_checks.rs:233-263 [choose_check_for_subtask]; [None]: the [unreachable!] *)
Definition choose_check (results : list outcome) : option check_kind :=
  let results := dedup (merge_sort index_le results) in
  let minimal := List.filter (fun r => forallb (fun r2 => negb (outcome_lt r2 r)) results) results in
  List.find (fun k => forallb (contains (minimals k)) minimal) sorted_all.

(** ** Finding the checks in a source *)
(** [str::split('\n')] *)
Fixpoint split_nl (t : text) : list text :=
  match t with
  | [] => [[]]
  | c :: t => if decide (c = nl) then [] :: split_nl t else match split_nl t with l :: ls => (c :: l) :: ls | [] => [[c]] end
  end.
Fixpoint starts (p t : text) : bool :=
  match p, t with
  | [], _ => true
  | _, [] => false
  | a :: p, b :: t => bool_decide (a = b) && starts p t
  end.
Definition at_check : text := chars "@check-".
(** FIND_CHECKS, solution.rs:305: where its group starts (the last occurrence of the mark: what precedes it is greedy) *)
Fixpoint last_check (t : text) : option nat :=
  match t with
  | [] => None
  | _ :: t' => match last_check t' with Some n => Some (S n) | None => if starts at_check t then Some 0 else None end
  end.
(** EXTRACT_CHECKS, solution.rs:306-320: the names *)
Definition regex_names : list string :=
  ["accepted"; "partial-score"; "wrong-answer"; "time-limit-exceeded"; "memory-limit-exceeded"; "runtime-error"; "zero"]%string.
(** A match that starts here: the name and what follows the colon (the rest of the pattern matches the rest of the line, to its end) *)
Fixpoint match_here (names : list string) (t : text) : option (text * text) :=
  match names with
  | [] => None
  | n :: names =>
    let p := at_check ++ chars n ++ chars ":" in
    if starts p t then Some (chars n, drop (length p) t) else match_here names t
  end.
(** The leftmost match *)
Fixpoint first_match (t : text) : option (nat * text * text) :=
  match t with
  | [] => None
  | _ :: t' =>
    match match_here regex_names t with
    | Some (name, rest) => Some (0, name, rest)
    | None => match first_match t' with Some (n, name, rest) => Some (S n, name, rest) | None => None end
    end
  end.
(** The property White_Space of Unicode ([char::is_whitespace], [\s]) *)
Definition is_ws (c : N) : bool :=
  ((9 <=? c) && (c <=? 13) || (c =? 32) || (c =? 133) || (c =? 160) || (c =? 5760) || ((8192 <=? c) && (c <=? 8202))
   || (c =? 8232) || (c =? 8233) || (c =? 8239) || (c =? 8287) || (c =? 12288))%N.
(** solution.rs:369-377 [split_patterns] ([split_whitespace]); [w]: the current word *)
Fixpoint split_ws (w : text) (t : text) : list text :=
  match t with
  | [] => match w with [] => [] | _ => [w] end
  | c :: t => if is_ws c then match w with [] => split_ws [] t | _ => w :: split_ws [] t end else split_ws (w ++ [c]) t
  end.
(** span.rs:31-66 [CodeSpan::from_str]: the line number; [None]: an error *)
Fixpoint span_line (lines : list text) (previous skipped offset len : nat) : option nat :=
  match lines with
  | [] => None
  | l :: lines =>
    if decide (previous + length l = offset) then None
    else if decide (previous + length l < offset) then span_line lines (previous + (length l + 1)) (skipped + 1) offset len
    else if decide (length l < offset - previous + len) then None
    else Some (skipped + 1)
  end.
(** solution.rs:79-86 [SolutionCheck]; of the span only the line number is kept *)
Record sol_check := SolCheck { sc_kind : check_kind; sc_pattern : text; sc_line : nat }.
(** solution.rs:299-367 [extract_check_list]: the checks, and the lines for which a diagnostic is added; [None]: an error *)
Fixpoint extract_lines (all lines : list text) (file_offset : nat) : option (list sol_check * list text) :=
  match lines with
  | [] => Some ([], [])
  | line :: lines =>
    let file_offset := file_offset + (length line + 1) in
    match last_check line with
    | None => extract_lines all lines file_offset
    | Some found =>
      let offset := file_offset - 1 - length line + found in
      match first_match line with
      | Some (start, name, rest) =>
        number ← span_line all 0 0 offset (length line - start);
        kind ← from_str name;
        '(checks, bad) ← extract_lines all lines file_offset;
        Some (map (fun p => SolCheck kind p number) (split_ws [] rest) ++ checks, bad)
      | None =>
        '(checks, bad) ← extract_lines all lines file_offset;
        Some (checks, line :: bad)
      end
    end
  end.
Definition extract (content : text) : option (list sol_check * list text) := extract_lines (split_nl content) (split_nl content) 0.
(** solution.rs:30-50 [Solution::new]: a solution (with its checks), or nothing *)
Definition new_solution (known_language : bool) (content : text) : option (list sol_check) :=
  if known_language then '(checks, _) ← extract content; Some checks else None.

(** ** Writing the checks *)
Fixpoint join (sep : text) (l : list text) : text :=
  match l with [] => [] | [x] => x | x :: l => x ++ sep ++ join sep l end.
Definition strip_cr (l : text) : text := match last l with Some c => if decide (c = cr) then removelast l else l | None => l end.
(** [str::lines] *)
Fixpoint strip_lines (l : list text) : list text :=
  match l with [] => [] | [x] => match x with [] => [] | _ => [x] end | x :: l => strip_cr x :: strip_lines l end.
Definition lines (t : text) : list text := strip_lines (split_nl t).
(** [Vec::remove]; [None]: the panic *)
Definition remove_at {A} (i : nat) (l : list A) : option (list A) := if decide (i < length l) then Some (take i l ++ drop (S i) l) else None.
Fixpoint remove_each {A} (is : list nat) (l : list A) : option (list A) :=
  match is with [] => Some l | i :: is => l ← remove_at i l; remove_each is l end.
(** add_solution_checks.rs:265-309 [write_comments_to_file]; [None]: a panic *)
Definition write_comments (content : text) (comments : list text) (to_remove : list sol_check) : option text :=
  ls ← remove_each (rev (merge_sort le (remove_dups (map (fun c => sc_line c - 1) to_remove)))) (lines content);
  let position := if starts (chars "#!") content then 1 else 0 in
  if decide (position <= length ls) then
    Some (join [nl] (take position ls ++ join [nl] comments :: drop position ls) ++ [nl])
  else None.
(** add_solution_checks.rs:171-215, the part of [process_solution] that builds the comments: [subtasks] are the names and the outcomes of the
    subtasks, by id; [None]: the panic of [choose_check_for_subtask] *)
Definition chosen (subtasks : list (text * list outcome)) : option (list (check_kind * text)) :=
  mapM (fun s => k ← choose_check s.2; Some (k, s.1)) subtasks.
Definition names_of (k : check_kind) (l : list (check_kind * text)) : list text := omap (fun x => if decide (x.1 = k) then Some x.2 else None) l.
Definition comment (prefix : text) (k : check_kind) (names : list text) : text :=
  prefix ++ chars " @check-" ++ chars (as_str k) ++ chars ": " ++ join [space] names.
(** The entries of the map sorted by the check *)
Definition comments (prefix : text) (subtasks : list (text * list outcome)) : option (list text) :=
  l ← chosen subtasks;
  Some (omap (fun k => match names_of k l with [] => None | names => Some (comment prefix k names) end) sorted_all).
(** add_solution_checks.rs:111-141, 216-230: the new content of the file ([--in-place]); [None]: an error or a panic.  A solution with checks is
    left alone without [--overwrite]. *)
Definition add_checks (overwrite : bool) (prefix : text) (subtasks : list (text * list outcome)) (content : text) : option text :=
  '(old, _) ← extract content;
  if negb overwrite && match old with [] => false | _ => true end then Some content else
  new ← comments prefix subtasks;
  match new with
  | [] => Some content
  | _ => write_comments content new (if overwrite then old else [])
  end.
