(** * FormatModel: task-maker-format/src/ioi/format/italian_yaml: GEN.pest, gen_gen.rs, cases.gen.pest, cases_gen.rs, static_inputs.rs

    Definitions only.

    - A text is the list of its characters.  The grammars are PEGs: each rule is a function that takes the rest of the line and gives its value and what
      is left, or nothing.  All rules but [file] stay inside a line, so a file is parsed line by line.
    - Scores are kept as they are written (what the grammars accept is always a number for [f64::from_str]).
    - Spans and descriptions are left out.  Source files are their paths, relative to the task directory.
    - Natural numbers instead of u32. *)
From stdpp Require Export list gmap strings pretty sorting.
From Verif Require ChecksModel.

Notation text := (list N).
Notation chars := ChecksModel.chars.
Definition hash : N := 35%N.
Definition colon : N := 58%N.
Definition dollar : N := 36%N.
Definition is_blank (c : N) : bool := (c =? 32)%N || (c =? 9)%N.
Definition is_digit (c : N) : bool := ((48 <=? c) && (c <=? 57))%N.
Definition is_word (c : N) : bool := negb (is_blank c) && negb (c =? hash)%N.
Definition not_hash (c : N) : bool := negb (c =? hash)%N.

(** [x*] for a class of characters: what is taken and what is left *)
Fixpoint span (f : N -> bool) (t : text) : text * text :=
  match t with
  | [] => ([], [])
  | c :: t' => if f c then let '(a, b) := span f t' in (c :: a, b) else ([], t)
  end.
(** [x+] *)
Definition span1 (f : N -> bool) (t : text) : option (text * text) :=
  match span f t with ([], _) => None | (a, b) => Some (a, b) end.
Definition blanks (t : text) : text := (span is_blank t).2.
Definition blanks1 (t : text) : option text := '(_, t) ← span1 is_blank t; Some t.
Fixpoint literal (p t : text) : option text :=
  match p, t with
  | [], _ => Some t
  | a :: p, b :: t => if decide (a = b) then literal p t else None
  | _ :: _, [] => None
  end.
(** NEWLINE of pest: line feed, carriage return and line feed, carriage return *)
Fixpoint split_lines (t : text) : list text :=
  match t with
  | [] => [[]]
  | c :: t =>
    if decide (c = 10%N) then [] :: split_lines t
    else if decide (c = 13%N) then
      match t with
      | d :: t' => if decide (d = 10%N) then [] :: split_lines t' else [] :: split_lines t
      | [] => [[]; []]
      end
    else match split_lines t with l :: ls => (c :: l) :: ls | [] => [[c]] end
  end.
(** [(ws+ ~ word)*]; [n]: at least the number of words *)
Fixpoint more_words (n : nat) (t : text) : list text * text :=
  match n with
  | 0 => ([], t)
  | S n =>
    match blanks1 t with
    | Some t' => match span1 is_word t' with Some (w, r) => let '(ws, r) := more_words n r in (w :: ws, r) | None => ([], t) end
    | None => ([], t)
    end
  end.
(** [(ws* ~ word)*] *)
Fixpoint more_words0 (n : nat) (t : text) : list text * text :=
  match n with
  | 0 => ([], t)
  | S n => match span1 is_word (blanks t) with Some (w, r) => let '(ws, r) := more_words0 n r in (w :: ws, r) | None => ([], t) end
  end.

(** ** gen/GEN *)
(** GEN.pest: the lines *)
Inductive gen_line := LSubtask (score : text) | LName (name : text) | LDeps (deps : list text) | LCopy (path : text) | LComment | LCommand (args : list text) | LEmpty.
Definition gen_subtask (t : text) : option (gen_line * text) := t ← literal (chars "#ST:") t; '(n, t) ← span1 is_digit (blanks t); Some (LSubtask n, blanks t).
Definition gen_name (t : text) : option (gen_line * text) := t ← literal (chars "#STNAME:") t; '(n, t) ← span1 is_word (blanks t); Some (LName n, blanks t).
Definition gen_deps (t : text) : option (gen_line * text) := t ← literal (chars "#STDEP:") t; let '(ws, t) := more_words0 (length t) t in Some (LDeps ws, blanks t).
Definition gen_copy (t : text) : option (gen_line * text) := t ← literal (chars "#COPY:") t; '(n, t) ← span1 is_word (blanks t); Some (LCopy n, blanks t).
Definition gen_comment (t : text) : option (gen_line * text) :=
  t ← literal [hash] t; match blanks1 t with Some _ => Some (LComment, []) | None => Some (LComment, t) end.
Definition gen_command (t : text) : option (gen_line * text) :=
  match literal [hash] t with
  | Some _ => None
  | None => '(w, t) ← span1 is_word (blanks t); let '(ws, t) := more_words (length t) t in Some (LCommand (w :: ws), blanks t)
  end.
Definition gen_empty (t : text) : option (gen_line * text) := Some (LEmpty, blanks t).
(** [line]: the first alternative that matches, then possibly a comment; it must be the whole line *)
Definition first_of {A} (ps : list (text -> option A)) (t : text) : option A := foldr (fun p r => match p t with Some x => Some x | None => r end) None ps.
Definition gen_rules : list (text -> option (gen_line * text)) := [gen_subtask; gen_name; gen_deps; gen_copy; gen_comment; gen_command; gen_empty].
Definition parse_gen_line (t : text) : option gen_line :=
  '(l, t) ← first_of gen_rules t;
  match t with [] => Some l | c :: _ => if decide (c = hash) then Some l else None end.
Definition parse_gen_lines (content : text) : option (list gen_line) := mapM parse_gen_line (split_lines content).

(** The entries: mod.rs:452-460 [TaskInputEntry], ioi/mod.rs:150-175 [SubtaskInfo], [TestcaseInfo] *)
Inductive validator := AssumeValid | CustomVal (source : text) (args : list text).
Inductive input_gen := StaticIn (path : text) | CustomIn (source : text) (args : list text).
Inductive output_gen := StaticOut (path : text) | CustomOut (source : text) | NotAvailable.
Record subtask_entry := SubtaskEntry { se_id : nat; se_name : option text; se_score : text; se_default : bool; se_validator : validator; se_deps : list nat }.
Record testcase_entry := TestcaseEntry { te_id : nat; te_input : input_gen; te_output : output_gen }.
Inductive entry := ESubtask (s : subtask_entry) | ETestcase (t : testcase_entry).
Definition map_last {A} (f : A -> A) (l : list A) : list A := match last l with Some x => removelast l ++ [f x] | None => l end.
Definition set_name (n : text) (e : entry) : entry :=
  match e with ESubtask s => ESubtask (SubtaskEntry (se_id s) (Some n) (se_score s) (se_default s) (se_validator s) (se_deps s)) | _ => e end.
Definition set_validator (v : validator) (e : entry) : entry :=
  match e with ESubtask s => ESubtask (SubtaskEntry (se_id s) (se_name s) (se_score s) (se_default s) v (se_deps s)) | _ => e end.
Definition set_deps (d : list nat) (e : entry) : entry :=
  match e with ESubtask s => ESubtask (SubtaskEntry (se_id s) (se_name s) (se_score s) (se_default s) (se_validator s) d) | _ => e end.
(** [sort_unstable] and [dedup] *)
Fixpoint dedup_nat (l : list nat) : list nat :=
  match l with
  | [] => []
  | x :: l => match dedup_nat l with [] => [x] | y :: l' => if decide (x = y) then y :: l' else x :: y :: l' end
  end.
(** gen_gen.rs:200-218 and cases_gen.rs:197-220: the dependencies of a subtask; [n]: the number of subtasks *)
Fixpoint resolve (names : gmap text nat) (n : nat) (deps : list text) (ids : list nat) : option (list nat) :=
  match deps with
  | [] => Some (dedup_nat (merge_sort le ids))
  | d :: deps => if decide (d = chars "*") then resolve names n deps (seq 0 n) else id ← names !! d; resolve names n deps (ids ++ [id])
  end.
Definition resolve_entry (names : gmap text nat) (n : nat) (deps : gmap nat (list text)) (e : entry) : option entry :=
  match e with
  | ESubtask s => match deps !! se_id s with Some ds => ids ← resolve names n ds (se_deps s); Some (set_deps ids e) | None => Some e end
  | ETestcase _ => Some e
  end.

Section gen_gen.
  (** [clean]: [cleanup_subtask_name]; [get_validator] and [get_output] as in the code (of the validator only ids are asked); [generator]: the one
      found, gen_gen.rs:61-84 (exactly one, or an error before anything else) *)
  Context (clean : text -> option text) (get_validator : nat -> validator) (get_output : nat -> output_gen) (generator : text).
  (** gen_gen.rs:48-60: the local variables *)
  Record gen_state := GenState { gs_testcases : nat; gs_subtasks : nat; gs_entries : list entry; gs_names : gmap text nat; gs_deps : gmap nat (list text); gs_default : bool }.
  Definition gen_init : gen_state := GenState 0 0 [] ∅ ∅ true.
  Definition default_subtask : entry := ESubtask (SubtaskEntry 0 None (chars "100") true (get_validator 0) []).
  (** gen_gen.rs:156-159 and 173-176 *)
  Definition add_default (s : gen_state) : gen_state :=
    if gs_default s then GenState (gs_testcases s) (gs_subtasks s + 1) (gs_entries s ++ [default_subtask]) (gs_names s) (gs_deps s) false else s.
  Definition add_testcase (i : input_gen) (s : gen_state) : gen_state :=
    GenState (gs_testcases s + 1) (gs_subtasks s) (gs_entries s ++ [ETestcase (TestcaseEntry (gs_testcases s) i (get_output (gs_testcases s)))]) (gs_names s) (gs_deps s) (gs_default s).
  (** gen_gen.rs:86-198: a line; [None]: an error *)
  Definition gen_step (s : gen_state) (l : gen_line) : option gen_state :=
    match l with
    | LSubtask score =>
      Some (GenState (gs_testcases s) (gs_subtasks s + 1) (gs_entries s ++ [ESubtask (SubtaskEntry (gs_subtasks s) None score false (get_validator (gs_subtasks s)) [])])
        (gs_names s) (gs_deps s) false)
    | LName name =>
      match last (gs_entries s) with
      | Some (ESubtask st) =>
        match se_name st with
        | Some _ => None
        | None =>
          n ← clean name;
          match gs_names s !! n with
          | Some _ => None
          | None => Some (GenState (gs_testcases s) (gs_subtasks s) (map_last (set_name n) (gs_entries s)) (<[n := se_id st]> (gs_names s)) (gs_deps s) (gs_default s))
          end
        end
      | _ => None
      end
    | LDeps ds =>
      match last (gs_entries s) with
      | Some (ESubtask st) =>
        let deps := match ds with [] => gs_deps s | _ => <[se_id st := default [] (gs_deps s !! se_id st) ++ ds]> (gs_deps s) end in
        Some (GenState (gs_testcases s) (gs_subtasks s) (gs_entries s) (gs_names s) deps (gs_default s))
      | _ => None
      end
    | LCopy path => Some (add_testcase (StaticIn path) (add_default s))
    | LCommand args =>
      match get_output (gs_testcases s) with
      | StaticOut _ => None
      | _ => Some (add_testcase (CustomIn generator args) (add_default s))
      end
    | LComment | LEmpty => Some s
    end.
  Fixpoint gen_run (s : gen_state) (l : list gen_line) : option gen_state :=
    match l with [] => Some s | x :: l => s ← gen_step s x; gen_run s l end.
  (** gen_gen.rs:28-221 [parse_gen_gen] *)
  Definition parse_gen_gen (content : text) : option (list entry) :=
    l ← parse_gen_lines content;
    s ← gen_run gen_init l;
    mapM (resolve_entry (gs_names s) (gs_subtasks s) (gs_deps s)) (gs_entries s).
End gen_gen.

(** mod.rs:891-923 [cleanup_subtask_name]; [nfkc]: the normalization, [valid]: the category of the character is a valid one; the name is already a word
    and [trim] only affects other white space *)
Section cleanup.
  Context (nfkc : text -> text) (valid : N -> bool).
  Fixpoint trim_start (t : text) : text := match t with c :: t' => if ChecksModel.is_ws c then trim_start t' else t | [] => [] end.
  Definition trim (t : text) : text := rev (trim_start (rev (trim_start t))).
  Definition cleanup (name : text) : option text :=
    let n := nfkc (trim name) in
    match n with
    | [] => None
    | c :: _ =>
      if decide (c = 45%N) then None
      else if forallb (fun c => negb (c =? 42)%N && negb (c =? 63)%N && valid c) n then Some n else None
    end.
End cleanup.

(** ** gen/cases.gen *)
(** cases_gen.rs:43-67 *)
Inductive operand := Const (k : Z) | Var (name : text).
Inductive operator := Less | LessEqual | Greater | GreaterEqual | Equal.
Record constraint := Constraint { co_operands : list operand; co_operators : list operator }.
(** cases.gen.pest: the commands; a number is kept as it is written *)
Inductive item := INumber (t : text) | IVariable (t : text) | IOperator (o : operator).
Inductive cases_line :=
  | CGen (name : text) (def : option (text * text)) | CVal (name : text) (def : option (text * text))
  | CConstraint (items : list item) | CSubtask (score : text) (description : option text) | CDeps (deps : list text)
  | CCopy (path : text) | CRun (name : text) (args : text) | CTestcase (args : text) | CComment | CEmpty.
(** [GEN] and [VAL]: [word ~ (ws+ ~ word ~ variables_list)? ~ ws*]; the list of variables is the text *)
Fixpoint words_text (n : nat) (t : text) : text * text :=
  match n with
  | 0 => ([], t)
  | S n =>
    match span1 is_blank t with
    | Some (b, t') => match span1 is_word t' with Some (w, r) => let '(ws, r) := words_text n r in (b ++ w ++ ws, r) | None => ([], t) end
    | None => ([], t)
    end
  end.
Definition manager_rule (keyword : text) (make : text -> option (text * text) -> cases_line) (t : text) : option (cases_line * text) :=
  t ← literal keyword t; t ← blanks1 t; '(name, t) ← span1 is_word t;
  match t' ← blanks1 t; span1 is_word t' with
  | Some (path, r) => let '(vars, r) := words_text (length r) r in Some (make name (Some (path, vars)), blanks r)
  | None => Some (make name None, blanks t)
  end.
Definition number_rule (t : text) : option (text * text) :=
  let '(sign, r) := match t with c :: r => if decide (c = 45%N \/ c = 43%N) then ([c], r) else ([], t) | [] => ([], t) end in
  '(n, r) ← span1 is_digit r; Some (sign ++ n, r).
Definition operand_rule (t : text) : option (item * text) :=
  match number_rule t with
  | Some (n, r) => Some (INumber n, r)
  | None => t ← literal [dollar] t; '(w, r) ← span1 is_word t; Some (IVariable w, r)
  end.
Definition operator_rule (t : text) : option (operator * text) :=
  match literal (chars "<=") t with
  | Some r => Some (LessEqual, r)
  | None => match literal (chars "<") t with
  | Some r => Some (Less, r)
  | None => match literal (chars ">=") t with
  | Some r => Some (GreaterEqual, r)
  | None => match literal (chars ">") t with
  | Some r => Some (Greater, r)
  | None => match literal (chars "=") t with Some r => Some (Equal, r) | None => None end end end end end.
Definition link_rule (t : text) : option (list item * text) :=
  '(o, r) ← operator_rule (blanks t); '(i, r) ← operand_rule (blanks r); Some ([IOperator o; i], r).
Fixpoint links (n : nat) (t : text) : list item * text :=
  match n with
  | 0 => ([], t)
  | S n => match link_rule t with Some (i, r) => let '(is, r) := links n r in (i ++ is, r) | None => ([], t) end
  end.
Definition constraint_rule (t : text) : option (cases_line * text) :=
  t ← literal (chars "CONSTRAINT") t; t ← blanks1 t; '(i, t) ← operand_rule t;
  '(is, t) ← link_rule t; let '(is', t) := links (length t) t in Some (CConstraint (i :: is ++ is'), blanks t).
Definition float_rule (t : text) : option (text * text) :=
  '(n, t) ← span1 is_digit t;
  match r ← literal (chars ".") t; span1 is_digit r with Some (m, r) => Some (n ++ chars "." ++ m, r) | None => Some (n, t) end.
Definition subtask_rule (t : text) : option (cases_line * text) :=
  t ← literal (chars "SUBTASK") t; t ← blanks1 t; '(score, t) ← float_rule t;
  match t' ← blanks1 t; span1 not_hash t' with Some (d, r) => Some (CSubtask score (Some d), blanks r) | None => Some (CSubtask score None, blanks t) end.
Definition stdep_rule (t : text) : option (cases_line * text) :=
  t ← literal (chars "STDEP") t; let '(ws, t) := more_words (length t) t in Some (CDeps ws, blanks t).
Definition copy_rule (t : text) : option (cases_line * text) := t ← literal (chars "COPY") t; t ← blanks1 t; '(p, t) ← span1 not_hash t; Some (CCopy p, blanks t).
Definition run_rule (t : text) : option (cases_line * text) :=
  t ← literal (chars "RUN") t; t ← blanks1 t; '(name, t) ← span1 is_word t; t ← blanks1 t; '(args, t) ← span1 not_hash t; Some (CRun name args, t).
Definition command_rule (t : text) : option (cases_line * text) :=
  t ← literal [colon] t;
  first_of [manager_rule (chars "GEN") CGen; manager_rule (chars "VAL") CVal; constraint_rule; subtask_rule; stdep_rule; copy_rule; run_rule] (blanks t).
Definition comment_rule (t : text) : option (cases_line * text) := t ← literal [hash] t; Some (CComment, []).
Definition testcase_rule (t : text) : option (cases_line * text) :=
  match t with
  | [] => None
  | c :: _ => if decide (c = hash \/ c = colon) then None else '(r, t) ← span1 not_hash t; Some (CTestcase r, t)
  end.
Definition empty_rule (t : text) : option (cases_line * text) := Some (CEmpty, blanks t).
Definition parse_cases_line (t : text) : option cases_line :=
  '(l, t) ← first_of [comment_rule; command_rule; testcase_rule; empty_rule] t;
  match t with [] => Some l | c :: _ => if decide (c = hash) then Some l else None end.
Definition parse_cases_lines (content : text) : option (list cases_line) := mapM parse_cases_line (split_lines content).

(** [i64::from_str] *)
Definition digits_value (t : text) : Z := foldl (fun z c => (z * 10 + (Z.of_N c - 48))%Z) 0%Z t.
Definition i64 (z : Z) : bool := ((- 2 ^ 63 <=? z) && (z <? 2 ^ 63))%Z.
Definition parse_i64 (t : text) : option Z :=
  let '(neg, d) := match t with c :: d => if decide (c = 45%N) then (true, d) else if decide (c = 43%N) then (false, d) else (false, t) | [] => (false, []) end in
  match d with
  | [] => None
  | _ => if forallb is_digit d then let z := if neg then (- digits_value d)%Z else digits_value d in if i64 z then Some z else None else None
  end.
(** cases_gen.rs:694-705 [is_valid] of an operator *)
Definition compare_op (o : operator) (l r : Z) : bool :=
  match o with Less => l <? r | LessEqual => l <=? r | Equal => l =? r | Greater => r <? l | GreaterEqual => r <=? l end%Z.
(** cases_gen.rs:735-754 [get_val] *)
Definition operand_val (vars : gmap text text) (o : operand) : option Z :=
  match o with Const k => Some k | Var v => t ← vars !! v; parse_i64 t end.
(** cases_gen.rs:766-781 [is_valid] of a constraint; [None]: it cannot be verified *)
Fixpoint valid_chain (vars : gmap text text) (last : Z) (ops : list operator) (operands : list operand) : option bool :=
  match ops, operands with
  | o :: ops, x :: operands => this ← operand_val vars x; if compare_op o last this then valid_chain vars this ops operands else Some false
  | _, _ => Some true
  end.
Definition constraint_valid (vars : gmap text text) (c : constraint) : option bool :=
  match co_operands c with
  | x :: operands => v ← operand_val vars x; valid_chain vars v (co_operators c) operands
  | [] => None
  end.
(** cases_gen.rs:463-517: the loop of [parse_constraint]; [None]: an error *)
Definition direction_of (o : operator) : option bool := match o with Less | LessEqual => Some true | Greater | GreaterEqual => Some false | Equal => None end.
Fixpoint make_constraint (items : list item) (c : constraint) (direction : option bool) : option constraint :=
  match items with
  | [] => Some c
  | INumber t :: items => k ← parse_i64 t; make_constraint items (Constraint (co_operands c ++ [Const k]) (co_operators c)) direction
  | IVariable v :: items => make_constraint items (Constraint (co_operands c ++ [Var v]) (co_operators c)) direction
  | IOperator o :: items =>
    let dir := direction_of o in
    let direction := match direction with None => dir | _ => direction end in
    if bool_decide (dir <> None) && bool_decide (direction <> dir) then None
    else make_constraint items (Constraint (co_operands c) (co_operators c ++ [o])) direction
  end.
Definition parse_constraint (items : list item) : option constraint :=
  c ← make_constraint items (Constraint [] []) None;
  if decide (length (co_operators c) + 1 <> length (co_operands c)) then None
  else if decide (length (co_operands c) < 2) then None
  else Some c.
(** cases_gen.rs:32-40 *)
Record manager := Manager { mg_source : text; mg_args : list text }.

Section cases_gen.
  (** [split]: [shell_words::split]; [exists_file]: the path exists; [known]: its language is known; [file_name]: [TM_VALIDATION_FILE_NAME] *)
  Context (split : text -> option (list text)) (exists_file known : text -> bool) (get_output : nat -> output_gen) (file_name : text).
  (** cases_gen.rs:81-125 *)
  Record cases_state := CasesState {
    cs_result : list entry; cs_constraints : list constraint; cs_st_constraints : list (list constraint);
    cs_generators : gmap text manager; cs_validators : gmap text manager; cs_default_gen : option text; cs_default_val : option text; cs_current : option text;
    cs_subtask_id : nat; cs_subtask_name : option text; cs_names : gmap text nat; cs_deps : gmap nat (list text); cs_testcase_id : nat }.
  Definition cases_init : cases_state := CasesState [] [] [] ∅ ∅ None None None 0 None ∅ ∅ 0.
  (** cases_gen.rs:675-686 *)
  Definition auto_variables (subtask_id : nat) (name : option text) : gmap text text :=
    let vars := <[chars "ST_NUM" := chars (pretty (subtask_id - 1))]> (<[chars "INPUT" := file_name]> ∅) in
    match name with Some n => <[chars "ST_NAME" := n]> vars | None => vars end.
  (** cases_gen.rs:664-672 *)
  Fixpoint bind_args (definition args : list text) (vars : gmap text text) : gmap text text :=
    match definition, args with
    | d :: definition, a :: args => bind_args definition args (<[d := a]> vars)
    | _, _ => vars
    end.
  Definition variables (s : cases_state) (definition args : list text) : gmap text text := bind_args definition args (auto_variables (cs_subtask_id s) (cs_subtask_name s)).
  (** cases_gen.rs:612-645 [get_validator] *)
  Definition strip_dollar (t : text) : text := match t with c :: t' => if decide (c = dollar) then t' else t | [] => [] end.
  Definition find_validator (s : cases_state) (v : option text) (vars : gmap text text) : option validator :=
    match v with
    | None => Some AssumeValid
    | Some name =>
      m ← cs_validators s !! name;
      match mg_args m with
      | [] => a ← vars !! chars "INPUT"; b ← vars !! chars "ST_NUM"; Some (CustomVal (mg_source m) [a; b])
      | _ => args ← mapM (fun a => vars !! strip_dollar a) (mg_args m); Some (CustomVal (mg_source m) args)
      end
    end.
  (** cases_gen.rs:361-408 [define_gen_val]: the default and the managers *)
  Definition define_manager (name path vars : text) (dflt : option text) (managers : gmap text manager) : option (option text * gmap text manager) :=
    if negb (exists_file path) then None
    else if negb (known path) then None
    else
      args ← split vars;
      match managers !! name with
      | Some _ => None
      | None => Some (if bool_decide (dflt = None) || bool_decide (name = chars "default") then Some name else dflt, <[name := Manager path args]> managers)
      end.
  Definition set_result (r : list entry) (s : cases_state) : cases_state :=
    CasesState r (cs_constraints s) (cs_st_constraints s) (cs_generators s) (cs_validators s) (cs_default_gen s) (cs_default_val s) (cs_current s)
      (cs_subtask_id s) (cs_subtask_name s) (cs_names s) (cs_deps s) (cs_testcase_id s).
  Definition push_testcase (i : input_gen) (s : cases_state) : cases_state :=
    CasesState (cs_result s ++ [ETestcase (TestcaseEntry (cs_testcase_id s) i (get_output (cs_testcase_id s)))]) (cs_constraints s) (cs_st_constraints s)
      (cs_generators s) (cs_validators s) (cs_default_gen s) (cs_default_val s) (cs_current s)
      (cs_subtask_id s) (cs_subtask_name s) (cs_names s) (cs_deps s) (cs_testcase_id s + 1).
  (** cases_gen.rs:318-358 [parse_testcase] *)
  Definition cases_testcase (line : text) (generator : option text) (s : cases_state) : option cases_state :=
    if decide (cs_subtask_id s = 0) then None
    else
      g ← generator;
      args ← split line;
      m ← cs_generators s !! g;
      let vars := variables s (mg_args m) args in
      extra ← last (cs_st_constraints s);
      if existsb (fun c => bool_decide (constraint_valid vars c = Some false)) (cs_constraints s ++ extra) then None
      else Some (push_testcase (CustomIn (mg_source m) args) s).
  (** The commands *)
  Definition cases_step (s : cases_state) (l : cases_line) : option cases_state :=
    match l with
    (* cases_gen.rs:411-430 *)
    | CGen name None =>
      if decide (cs_subtask_id s = 0) then None
      else match cs_generators s !! name with
           | None => None
           | Some _ => Some (CasesState (cs_result s) (cs_constraints s) (cs_st_constraints s) (cs_generators s) (cs_validators s) (cs_default_gen s) (cs_default_val s) (Some name)
                               (cs_subtask_id s) (cs_subtask_name s) (cs_names s) (cs_deps s) (cs_testcase_id s))
           end
    | CGen name (Some (path, vars)) =>
      '(d, m) ← define_manager name path vars (cs_default_gen s) (cs_generators s);
      Some (CasesState (cs_result s) (cs_constraints s) (cs_st_constraints s) m (cs_validators s) d (cs_default_val s) (cs_current s)
              (cs_subtask_id s) (cs_subtask_name s) (cs_names s) (cs_deps s) (cs_testcase_id s))
    (* cases_gen.rs:433-460 *)
    | CVal name None =>
      if decide (cs_subtask_id s = 0) then None
      else
        v ← find_validator s (Some name) (auto_variables (cs_subtask_id s) (cs_subtask_name s));
        match last (cs_result s) with
        | Some (ESubtask _) => Some (set_result (map_last (set_validator v) (cs_result s)) s)
        | _ => None
        end
    | CVal name (Some (path, vars)) =>
      '(d, m) ← define_manager name path vars (cs_default_val s) (cs_validators s);
      Some (CasesState (cs_result s) (cs_constraints s) (cs_st_constraints s) (cs_generators s) m (cs_default_gen s) d (cs_current s)
              (cs_subtask_id s) (cs_subtask_name s) (cs_names s) (cs_deps s) (cs_testcase_id s))
    (* cases_gen.rs:463-525 *)
    | CConstraint items =>
      c ← parse_constraint items;
      if decide (cs_subtask_id s = 0) then
        Some (CasesState (cs_result s) (cs_constraints s ++ [c]) (cs_st_constraints s) (cs_generators s) (cs_validators s) (cs_default_gen s) (cs_default_val s) (cs_current s)
                (cs_subtask_id s) (cs_subtask_name s) (cs_names s) (cs_deps s) (cs_testcase_id s))
      else
        Some (CasesState (cs_result s) (cs_constraints s) (map_last (fun l => l ++ [c]) (cs_st_constraints s)) (cs_generators s) (cs_validators s) (cs_default_gen s) (cs_default_val s) (cs_current s)
                (cs_subtask_id s) (cs_subtask_name s) (cs_names s) (cs_deps s) (cs_testcase_id s))
    (* cases_gen.rs:528-576 *)
    | CSubtask score description =>
      let name := (fun d => List.filter (fun c => negb (is_blank c)) d) <$> description in
      let id := cs_subtask_id s in
      if bool_decide (is_Some (n ← name; cs_names s !! n)) then None
      else
        let names := match name with Some n => <[n := id]> (cs_names s) | None => cs_names s end in
        v ← find_validator s (cs_default_val s) (auto_variables (id + 1) name);
        Some (CasesState (cs_result s ++ [ESubtask (SubtaskEntry id name score false v [])]) (cs_constraints s) (cs_st_constraints s ++ [[]])
                (cs_generators s) (cs_validators s) (cs_default_gen s) (cs_default_val s) (cs_default_gen s)
                (id + 1) name names (cs_deps s) (cs_testcase_id s))
    (* cases_gen.rs:579-590 *)
    | CDeps ds =>
      match ds with
      | [] => Some s
      | _ =>
        match last (cs_result s) with
        | Some (ESubtask st) =>
          Some (CasesState (cs_result s) (cs_constraints s) (cs_st_constraints s) (cs_generators s) (cs_validators s) (cs_default_gen s) (cs_default_val s) (cs_current s)
                  (cs_subtask_id s) (cs_subtask_name s) (cs_names s) (<[se_id st := default [] (cs_deps s !! se_id st) ++ ds]> (cs_deps s)) (cs_testcase_id s))
        | _ => None
        end
      end
    (* cases_gen.rs:593-609 *)
    | CCopy path =>
      if decide (cs_subtask_id s = 0) then None
      else if negb (exists_file path) then None
      else Some (push_testcase (StaticIn path) s)
    (* cases_gen.rs:648-661 *)
    | CRun name args =>
      if decide (cs_subtask_id s = 0) then None
      else match cs_generators s !! name with None => None | Some _ => cases_testcase args (Some name) s end
    | CTestcase args => cases_testcase args (cs_current s) s
    | CComment | CEmpty => Some s
    end.
  Fixpoint cases_run (s : cases_state) (l : list cases_line) : option cases_state :=
    match l with [] => Some s | x :: l => s ← cases_step s x; cases_run s l end.
  (** cases_gen.rs:131-224 [CasesGen::new] and [get_task_entries] *)
  Definition parse_cases_gen (content : text) : option (list entry) :=
    l ← parse_cases_lines content;
    s ← cases_run cases_init l;
    mapM (resolve_entry (cs_names s) (cs_subtask_id s) (cs_deps s)) (cs_result s).
End cases_gen.

(** ** static_inputs.rs *)
(** [static_inputs]; [exists_input n]: the file [input/input<n>.txt] exists.  The iterator has no bound: [fuel] bounds the number of inputs. *)
Definition input_path (n : nat) : text := chars "input/input" ++ chars (pretty n) ++ chars ".txt".
Fixpoint static_testcases (exists_input : nat -> bool) (get_output : nat -> output_gen) (fuel index : nat) : list entry :=
  match fuel with
  | 0 => []
  | S fuel =>
    if exists_input index then ETestcase (TestcaseEntry index (StaticIn (input_path index)) (get_output index)) :: static_testcases exists_input get_output fuel (index + 1)
    else []
  end.
Definition static_inputs (exists_input : nat -> bool) (get_validator : nat -> validator) (get_output : nat -> output_gen) (fuel : nat) : list entry :=
  ESubtask (SubtaskEntry 0 (Some (chars "static-testcases")) (chars "100") true (get_validator 0) []) :: static_testcases exists_input get_output fuel 0.
