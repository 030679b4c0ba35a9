(** * BookletModel: the booklets with the statements

    Models task-maker-format/src/ioi/statement/{mod,booklet,statement,asy}.rs and src/tools/booklet.rs.

    Simplifications:
    - Paths, globs and text are those of [LangModel] and [FindModel] (ASCII).
    - The limits of a task are given as the text that [to_string] makes of them.
    - contest.yaml is given as parsed; serde_yaml is not modelled.
    - The iteration order of the hash map of the languages is the parameter [ord].
    - askama writes the fields in the template without escaping (booklet.rs:46, statement.rs:53).
    - The executions are in [BookletModel2]. *)
From Verif Require Export FindModel.
From Coq Require Import Ascii String NArith.
From stdpp Require Import base list sorting.
Local Open Scope nat_scope.

(** booklet.rs:76-91 [ContestYAML] *)
Record contest_yaml := ContestYaml {
  cy_description : option string; cy_location : option string; cy_date : option string; cy_logo : option string;
  cy_summary : option string; cy_intro : option fpath; cy_tasks : list string }.
(** What is on the disk: the tree, the files that [read_to_string] can read, contest.yaml ([None]: there is none; [Some None]: it
    cannot be parsed) *)
Record book_disk := BookDisk {
  bd_tree : tree;
  bd_text : fpath -> option text;
  bd_contest : fpath -> option (option contest_yaml)
}.
(** the fields of [IOITask] that the booklets use *)
Record task_data := TaskData {
  td_path : fpath; td_name : string; td_title : string; td_infile : option string; td_outfile : option string;
  td_time : option string; td_memory : option string; td_difficulty : option string; td_syllabus : option string }.
(** statement.rs:22-39 [StatementConfig] *)
Record stmt_config := StmtConfig {
  sm_name : string; sm_title : string; sm_infile : string; sm_outfile : string;
  sm_time : option string; sm_memory : option string; sm_difficulty : option string; sm_syllabus : option string }.
(** statement.rs:43-50 [Statement] *)
Record statement := Statement { sm_config : stmt_config; sm_path : fpath; sm_content : text }.
(** booklet.rs:22-43 [BookletConfig] *)
Record booklet_config := BookletConfig {
  bc_language : string; bc_solutions : bool; bc_summary : bool; bc_font : string; bc_input : string;
  bc_description : option string; bc_location : option string; bc_date : option string; bc_logo : option string;
  bc_intro : option fpath }.
(** booklet.rs:65-73 [Booklet] *)
Record booklet := Booklet { bk_config : booklet_config; bk_statements : list statement; bk_dest : fpath }.

Inductive book_error :=
  | BPanic                 (* lib.rs:230 *)
  | BRead (p : fpath)      (* statement.rs:72 *)
  | BRoot                  (* statement/mod.rs:34, 57, 64 *)
  | BContests              (* statement/mod.rs:66 *)
  | BYaml.                 (* booklet.rs:322-331 *)
Definition result (A : Type) : Type := A + book_error.
Definition rbind {A B} (x : result A) (f : A -> result B) : result B := match x with inl a => f a | inr e => inr e end.
Fixpoint rmap {A B} (f : A -> result B) (l : list A) : result (list B) :=
  match l with
  | [] => inl []
  | x :: l => rbind (f x) (fun y => rbind (rmap f l) (fun ys => inl (y :: ys)))
  end.

(** statement/mod.rs:99-109 [find_statement_files]; [None]: a panic *)
Definition find_statement_files (d : book_disk) (task : fpath) : option (list (string * fpath)) :=
  match list_files (bd_tree d) task ["statement/*.tex"; "testo/*.tex"] with
  | None => None
  | Some l => Some (omap (fun p => match file_name p with Some n => Some (string_of_list_ascii (fst (stem_ext n)), p) | None => None end) l)
  end.
(** [Path::with_extension] *)
Definition with_ext (p : fpath) (ext : string) : fpath :=
  match file_name p with
  | Some n => FPath (p_abs p) (removelast (p_comps p) ++ [string_of_list_ascii (fst (stem_ext n)) +:+ "." +:+ ext])
  | None => p
  end.
(** statement.rs:236-258 [StatementConfig::from_task] *)
Definition config_of (t : task_data) : stmt_config :=
  StmtConfig (td_name t) (td_title t) (match td_infile t with Some s => s | None => "" end) (match td_outfile t with Some s => s | None => "" end)
    (td_time t) (td_memory t) (td_difficulty t) (td_syllabus t).
(** statement.rs:69-78 [Statement::new] *)
Definition new_statement (d : book_disk) (p : fpath) (c : stmt_config) : result statement :=
  match bd_text d p with Some t => inl (Statement c p t) | None => inr (BRead p) end.
(** booklet.rs:279-313 [BookletConfig::from_contest], 316-338 [contest_yaml] *)
Definition from_contest (d : book_disk) (language : string) (dir : fpath) (solutions : bool) : result booklet_config :=
  match bd_contest d (child dir "contest.yaml") with
  | Some None => inr BYaml
  | Some (Some y) => inl (BookletConfig language solutions (bool_decide (cy_summary y = Some "True")) "T1" "utf8"
      (cy_description y) (cy_location y) (cy_date y) (cy_logo y) (cy_intro y))
  | None => inl (BookletConfig language solutions false "T1" "utf8" None None None None None)
  end.
(** statement/mod.rs:19-43 [make_task_booklets] *)
Definition make_task_booklets (d : book_disk) (task : task_data) (solutions : bool) : result (list booklet) :=
  match find_statement_files d (td_path task) with
  | None => inr BPanic
  | Some l => rmap (fun x : string * fpath =>
      rbind (new_statement d (snd x) (config_of task)) (fun s =>
      match parent (td_path task) with
      | None => inr BRoot
      | Some dir => rbind (from_contest d (fst x) dir solutions) (fun c => inl (Booklet c [s] (with_ext (snd x) "pdf")))
      end)) l
  end.
(** statement/mod.rs:60-69 *)
Fixpoint same_contest (dir : fpath) (tasks : list task_data) : result unit :=
  match tasks with
  | [] => inl tt
  | t :: tasks => match parent (td_path t) with
                  | None => inr BRoot
                  | Some q => if decide (q = dir) then same_contest dir tasks else inr BContests
                  end
  end.
(** statement/mod.rs:75-80: [entry(language).or_default().push(..)] *)
Fixpoint push_at {A} (k : string) (x : A) (m : list (string * list A)) : list (string * list A) :=
  match m with
  | [] => [(k, [x])]
  | (k', l) :: m => if decide (k = k') then (k', l ++ [x]) :: m else (k', l) :: push_at k x m
  end.
Definition by_language (l : list (task_data * list (string * fpath))) : list (string * list (task_data * fpath)) :=
  fold_left (fun m x => fold_left (fun m y => push_at (fst y) (fst x, snd y) m) (snd x) m) l [].
(** statement/mod.rs:46-96 [make_contest_booklets] *)
Definition make_contest_booklets (ord : list (string * list (task_data * fpath)) -> list (string * list (task_data * fpath)))
    (d : book_disk) (tasks : list task_data) (solutions : bool) : result (list booklet) :=
  match tasks with
  | [] => inl []
  | t0 :: _ =>
    match parent (td_path t0) with
    | None => inr BRoot
    | Some dir =>
      rbind (same_contest dir tasks) (fun _ =>
      match mapM (fun t => match find_statement_files d (td_path t) with Some l => Some (t, l) | None => None end) tasks with
      | None => inr BPanic
      | Some sts => rmap (fun x : string * list (task_data * fpath) =>
          rbind (from_contest d (fst x) dir solutions) (fun c =>
          rbind (rmap (fun y : task_data * fpath => new_statement d (snd y) (config_of (fst y))) (snd x)) (fun ss =>
          inl (Booklet c ss (child dir (fst x +:+ ".pdf")))))) (ord (by_language sts))
      end)
    end
  end.

(** ** The source *)
Definition backslash : ascii := ascii_of_nat 92.
Definition newline : ascii := "010"%char.
(** the literal part of the regex of statement.rs:17 *)
Definition usepackage : text := backslash :: chars "usepackage".
(** the regex matches here: something follows in the line *)
Definition package_at (l : text) : bool :=
  match strip_start usepackage l with Some (c :: _) => negb (bool_decide (c = newline)) | _ => false end.
(** statement.rs:157-159: [replace_all]; [inside]: in a match, that lasts to the end of the line *)
Fixpoint patch (inside : bool) (l : text) : text :=
  match l with
  | [] => []
  | c :: r => if inside then c :: patch (negb (bool_decide (c = newline))) r
              else if package_at l then "%"%char :: " "%char :: c :: patch true r
              else c :: patch false r
  end.
(** statement.rs:165-171 [packages]; [cur]: the match that is being read *)
Fixpoint find_packages (cur : option text) (l : text) : list text :=
  match l with
  | [] => match cur with Some t => [t] | None => [] end
  | c :: r => match cur with
              | Some t => if decide (c = newline) then t :: find_packages None r else find_packages (Some (t ++ [c])) r
              | None => if package_at l then find_packages (Some [c]) r else find_packages None r
              end
  end.
Definition packages (s : statement) : list text := find_packages None (sm_content s).
Definition or_empty (o : option string) : text := match o with Some s => chars s | None => [] end.
Definition braces (t : text) : text := "{"%char :: t ++ ["}"%char].
(** statement.rs:130-162 [tex], templates/task.tex *)
Definition statement_tex (s : statement) : text :=
  let c := sm_config s in
  backslash :: chars "begin{problem}" ++ braces (chars (sm_title c)) ++ braces (chars (sm_name c)) ++ braces (chars (sm_infile c)) ++ braces (chars (sm_outfile c))
    ++ braces (or_empty (sm_time c)) ++ braces (or_empty (sm_memory c)) ++ braces (or_empty (sm_difficulty c)) ++ braces (or_empty (sm_syllabus c))
    ++ newline :: patch false (sm_content s) ++ newline :: backslash :: chars "end{problem}".
(** [join] *)
Fixpoint unlines (sep : text) (l : list text) : text :=
  match l with [] => [] | [x] => x | x :: l => x ++ sep ++ unlines sep l end.
(** booklet.rs:217-220 *)
Definition import_line (s : statement) : text := backslash :: chars "subimport{./" ++ chars (sm_name (sm_config s)) ++ chars "/}{statement.tex}".
(** the order of [String], byte by byte *)
Definition text_le (a b : text) : Prop := name_le (string_of_list_ascii a) (string_of_list_ascii b).
Global Instance text_le_dec : RelDecision text_le.
Proof. unfold text_le. solve_decision. Defined.
(** booklet.rs:209-215, 235 *)
Definition all_packages (b : booklet) : list text := merge_sort text_le (remove_dups (bk_statements b ≫= packages)).
(** booklet.rs:237-243: a path from the current directory; nothing if it cannot be read *)
Definition intro_page (d : book_disk) (cwd : fpath) (b : booklet) : text :=
  match bc_intro (bk_config b) with Some p => match bd_text d (fjoin cwd p) with Some t => t | None => [] end | None => [] end.
(** booklet.rs:208-247 [make_tex], templates/booklet.tex *)
Definition tab : ascii := "009"%char.
Definition line (l : text) : text := l ++ [newline].
Definition cmd (s : string) (t : text) : text := backslash :: chars s ++ t.
Definition booklet_tex (d : book_disk) (cwd : fpath) (b : booklet) : text :=
  let c := bk_config b in
  line (cmd "documentclass[%" []) ++
  line (tab :: chars (bc_language c) ++ chars ",%") ++
  line (tab :: (if bc_solutions c then chars "showsolutions" else []) ++ chars ",%") ++
  line (tab :: (if bc_summary c then chars "showsummary" else []) ++ chars ",%") ++
  line (chars "]{cms-contest}") ++ line [] ++
  line (cmd "usepackage[" (chars (bc_font c) ++ chars "]{fontenc}")) ++
  line (cmd "usepackage[" (chars (bc_input c) ++ chars "]{inputenc}")) ++
  line (cmd "usepackage[" (chars (bc_language c) ++ chars "]{babel}")) ++
  line (cmd "usepackage{bookmark}" []) ++
  line (cmd "usepackage{import}" []) ++ line [] ++
  line (unlines [newline] (all_packages b)) ++ line [] ++
  line (cmd "begin{document}" []) ++
  line (tab :: intro_page d cwd b) ++
  line (tab :: cmd "begin{contest}" (braces (or_empty (bc_description c)) ++ braces (or_empty (bc_location c)) ++ braces (or_empty (bc_date c)))) ++
  line (tab :: tab :: cmd "setContestLogo" (braces (or_empty (bc_logo c)))) ++
  line (tab :: tab :: unlines [newline] (map import_line (bk_statements b))) ++
  line (tab :: cmd "end{contest}" []) ++
  cmd "end{document}" [].
