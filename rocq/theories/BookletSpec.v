(** * BookletSpec: the booklets of a task and of a contest *)
From Verif Require Import BookletModel FindSpec LangSpec.
From Coq Require Import Ascii String.
From stdpp Require Import base list sorting.
Local Open Scope nat_scope.

(** The directories of the statements *)
Definition statement_dirs : list string := ["statement"; "testo"].
(** The task at [task] has a statement in the language [lang], in the directory [dir] *)
Definition written (d : book_disk) (task : fpath) (dir lang : string) : Prop :=
  lang <> "" /\ dir ∈ statement_dirs /\ entry (bd_tree d) (child task dir) (lang +:+ ".tex").
Definition tex_path (task : fpath) (dir lang : string) : fpath := child (child task dir) (lang +:+ ".tex").
(** There is no file called [.tex] (its language would be [.tex]) *)
Definition no_hidden (d : book_disk) (task : fpath) : Prop := forall dir, dir ∈ statement_dirs -> ~ entry (bd_tree d) (child task dir) ".tex".
(** The languages of the directory [dir], in the order of the names of the files *)
Definition languages_in (d : book_disk) (task : fpath) (dir : string) (ls : list string) : Prop :=
  NoDup ls /\ StronglySorted name_le (map (fun l => l +:+ ".tex") ls) /\ forall l, l ∈ ls <-> written d task dir l.

(** [c] is what the statement of the task is told about it: a file that is not used (the standard input or output) has no name *)
Definition file_called (o : option string) (n : string) : Prop := (exists f, o = Some f /\ n = f) \/ (o = None /\ n = "").
Definition told (t : task_data) (c : stmt_config) : Prop :=
  sm_name c = td_name t /\ sm_title c = td_title t /\ file_called (td_infile t) (sm_infile c) /\ file_called (td_outfile t) (sm_outfile c) /\
  sm_time c = td_time t /\ sm_memory c = td_memory t /\ sm_difficulty c = td_difficulty t /\ sm_syllabus c = td_syllabus t.
(** [s] is that statement *)
Definition is_statement (d : book_disk) (t : task_data) (dir lang : string) (s : statement) : Prop :=
  told t (sm_config s) /\ sm_path s = tex_path (td_path t) dir lang /\ bd_text d (tex_path (td_path t) dir lang) = Some (sm_content s).
(** The settings of a booklet, for the contest in [dir] *)
Definition settings (d : book_disk) (dir : fpath) (lang : string) (solutions : bool) (c : booklet_config) : Prop :=
  bc_language c = lang /\ bc_solutions c = solutions /\ bc_font c = "T1" /\ bc_input c = "utf8" /\
  match bd_contest d (child dir "contest.yaml") with
  | None => bc_summary c = false /\ bc_description c = None /\ bc_location c = None /\ bc_date c = None /\ bc_logo c = None /\ bc_intro c = None
  | Some None => False
  | Some (Some y) => (bc_summary c = true <-> cy_summary y = Some "True") /\ bc_description c = cy_description y /\ bc_location c = cy_location y /\
                     bc_date c = cy_date y /\ bc_logo c = cy_logo y /\ bc_intro c = cy_intro y
  end.
(** The booklet of one statement of a task *)
Definition task_booklet (d : book_disk) (t : task_data) (solutions : bool) (dir lang : string) (b : booklet) : Prop :=
  exists s contest, bk_statements b = [s] /\ is_statement d t dir lang s /\ parent (td_path t) = Some contest /\ settings d contest lang solutions (bk_config b) /\
  bk_dest b = child (child (td_path t) dir) (lang +:+ ".pdf").
(** The places of the statements of the tasks in a language, in the order of the tasks: [dir] is statement before testo *)
Inductive places (d : book_disk) (lang : string) : list task_data -> list (task_data * string) -> Prop :=
  | places_nil : places d lang [] []
  | places_cons t ts dirs l : (forall dir, dir ∈ dirs <-> written d (td_path t) dir lang) -> dirs `sublist_of` statement_dirs ->
      places d lang ts l -> places d lang (t :: ts) (map (pair t) dirs ++ l).
(** The booklet of a contest in a language *)
Definition contest_booklet (d : book_disk) (contest : fpath) (tasks : list task_data) (solutions : bool) (b : booklet) : Prop :=
  let lang := bc_language (bk_config b) in
  settings d contest lang solutions (bk_config b) /\ bk_dest b = child contest (lang +:+ ".pdf") /\
  exists l, places d lang tasks l /\ Forall2 (fun x s => is_statement d x.1 x.2 lang s) l (bk_statements b).

(** ** The source *)
Definition lines_of (t : text) : list text := split_on newline t.
(** The command that loads a package (something follows it in the line) *)
Definition load (t : text) : Prop := exists c r, t = usepackage ++ c :: r.
(** [p] is the first command of the line [l], to its end; [a] is what is before *)
Definition first_load (l a p : text) : Prop := l = a ++ p /\ load p /\ forall a' p', l = a' ++ p' -> load p' -> length a <= length a'.
Definition loads (l : text) : Prop := exists a p, l = a ++ p /\ load p.
(** the commands of some lines, in order *)
Inductive loads_in : list text -> list text -> Prop :=
  | loads_nil : loads_in [] []
  | loads_no l ls ps : ~ loads l -> loads_in ls ps -> loads_in (l :: ls) ps
  | loads_yes l a p ls ps : first_load l a p -> loads_in ls ps -> loads_in (l :: ls) (p :: ps).
(** A line of a statement, and what becomes of it *)
Definition commented (l l' : text) : Prop :=
  (~ loads l /\ l' = l) \/ exists a p, first_load l a p /\ l' = a ++ chars "% " ++ p.
(** TeX reads [a] (the beginning of a line) and is then neither in a comment nor after a backslash *)
Inductive live : text -> Prop :=
  | live_nil : live []
  | live_escape c a : live a -> live (backslash :: c :: a)
  | live_char c a : c <> backslash -> c <> "%"%char -> live a -> live (c :: a).
(** TeX runs a command that loads a package, in the line [l] *)
Definition runs_load (l : text) : Prop := exists a p, l = a ++ p /\ live a /\ load p.
Definition tex (s : string) : text := backslash :: chars s.
Definition args (l : list text) : text := concat (map braces l).
(** The environment of a statement; what is around the packages, the page of introduction and the statements of a booklet *)
Definition begin_problem (c : stmt_config) : text :=
  tex "begin{problem}" ++ args [chars (sm_title c); chars (sm_name c); chars (sm_infile c); chars (sm_outfile c);
    or_empty (sm_time c); or_empty (sm_memory c); or_empty (sm_difficulty c); or_empty (sm_syllabus c)].
Definition preamble (c : booklet_config) : list text :=
  [tex "documentclass[%"; tab :: chars (bc_language c) ++ chars ",%"; tab :: chars (if bc_solutions c then "showsolutions,%" else ",%");
   tab :: chars (if bc_summary c then "showsummary,%" else ",%"); chars "]{cms-contest}"; [];
   tex "usepackage[" ++ chars (bc_font c) ++ chars "]{fontenc}"; tex "usepackage[" ++ chars (bc_input c) ++ chars "]{inputenc}";
   tex "usepackage[" ++ chars (bc_language c) ++ chars "]{babel}"; tex "usepackage{bookmark}"; tex "usepackage{import}"; []].
Definition contest_lines (c : booklet_config) : list text :=
  [tab :: tex "begin{contest}" ++ args [or_empty (bc_description c); or_empty (bc_location c); or_empty (bc_date c)]; tab :: tab :: tex "setContestLogo" ++ args [or_empty (bc_logo c)]].
Definition import_of (s : statement) : text := tex "subimport{./" ++ chars (sm_name (sm_config s)) ++ chars "/}{statement.tex}".
(** [ls] are the lines [xs], after some tabs *)
Definition indented (xs ls : list text) : Prop := Forall2 (fun x l => exists k, l = replicate k tab ++ x) xs ls.
(** The fields that go in a line have one line only *)
Definition one_line (s : string) : Prop := newline ∉ chars s.
Definition one_lines (b : booklet) : Prop :=
  let c := bk_config b in
  one_line (bc_language c) /\ one_line (bc_font c) /\ one_line (bc_input c) /\
  Forall (fun o => match o with Some s => one_line s | None => True end) [bc_description c; bc_location c; bc_date c; bc_logo c] /\
  Forall (fun s => one_line (sm_name (sm_config s))) (bk_statements b).
