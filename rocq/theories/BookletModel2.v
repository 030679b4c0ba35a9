(** * BookletModel2: the files with which a booklet is compiled

    Models task-maker-format/src/ioi/statement: statement.rs [build_deps], asy.rs [compile] and [find_asy_deps], booklet.rs [build].

    Simplifications:
    - The recursive glob of a directory ([**/*]) is a parameter: the paths under the directory, in its order; it does not fail.
    - The executions are given by the files in their sandboxes: the commands, the limits, the callbacks and the logs are not modelled
      (the crop of the figure, asy.rs:120-170, takes the output of asy and gives its own).
    - [None] is an error of the whole booklet. *)
From Verif Require Export BookletModel.
From Coq Require Import Ascii String.
From stdpp Require Import base list.
Local Open Scope nat_scope.

(** What is on the disk: the paths under a directory, the files, the directories, what exists, [canonicalize] and the files that [provide_file] can
    read *)
Record files_disk := FilesDisk {
  fd_under : fpath -> list (list string);
  fd_file : fpath -> bool;
  fd_dir : fpath -> bool;
  fd_exists : fpath -> bool;
  fd_canon : fpath -> option fpath;
  fd_provides : fpath -> bool
}.
Definition under (dir : fpath) (rel : list string) : fpath := FPath (p_abs dir) (p_comps dir ++ rel).
Definition relative (rel : list string) : fpath := FPath false rel.
(** where a file of a sandbox comes from: a text, a file, the figure made from a source *)
Inductive origin := OText (t : text) | OFile (p : fpath) | OFigure (p : fpath).

(** asy.rs:172-192 [find_asy_deps]; the paths in the sandbox and on the disk *)
Definition asy_deps (d : files_disk) (p dir : fpath) : list (fpath * fpath) :=
  map (fun rel => (relative rel, under dir rel)) (filter (fun rel => under dir rel <> p /\ fd_dir d (under dir rel) = false) (fd_under d dir)).
(** asy.rs:21-118 [compile]: the inputs of asy, in the order in which they are added *)
Definition asy_inputs (d : files_disk) (p : fpath) : option (list (fpath * fpath)) :=
  match file_name p, parent p with
  | Some _, Some dir =>
    if fd_provides d p && forallb (fun x => fd_provides d (snd x)) (asy_deps d p dir) then Some ((relative ["tm-compilation.asy"], p) :: asy_deps d p dir) else None
  | _, _ => None
  end.
(** [str::contains] *)
Fixpoint contains (p l : text) : bool :=
  (match strip_start p l with Some _ => true | None => false end) || match l with [] => false | _ :: l => contains p l end.
Definition extension_of (p : fpath) : text := match file_name p with Some n => match snd (stem_ext n) with Some e => e | None => [] end | None => [] end.
(** statement.rs:217-231 [is_valid_pdf_dependency] *)
Definition valid_pdf (d : files_disk) (p : fpath) : option bool :=
  match fd_canon d p with
  | None => None
  | Some r => Some (negb (fd_exists d (with_ext r "asy")) && negb (fd_exists d (with_ext r "tex")))
  end.
Definition provided (d : files_disk) (q p : fpath) : option (list (fpath * origin)) := if fd_provides d p then Some [(q, OFile p)] else None.
(** statement.rs:174-215 [process_possible_dependency] *)
Definition process_dep (d : files_disk) (content : text) (logo : option string) (base : fpath) (rel : list string) : option (list (fpath * origin)) :=
  let p := under base rel in
  let q := relative rel in
  if decide (extension_of p = chars "asy") then
    let dest := with_ext q "pdf" in
    if contains (chars (show_path dest)) content
    then match asy_inputs d p with Some _ => Some [(dest, OFigure p)] | None => None end
    else Some []
  else if decide (extension_of p = chars "pdf") then
    if decide (is_Some logo /\ file_name p = logo) then provided d q p
    else match valid_pdf d p with None => None | Some true => provided d q p | Some false => Some [] end
  else provided d q p.
Definition gen_files : list string := ["limiti.py"; "constraints.py"; "GEN"].
Definition gen_file (base : fpath) (n : string) : fpath := under base [".."; "gen"; n].
(** statement.rs:87-128 [build_deps] *)
Definition logo_name (c : booklet_config) : option string := match bc_logo c with Some l => file_name (fpath_of (chars l)) | None => None end.
Definition build_deps (d : files_disk) (c : booklet_config) (s : statement) : option (list (fpath * origin)) :=
  match parent (sm_path s) with
  | None => None
  | Some base =>
    l1 ← mapM (process_dep d (sm_content s) (logo_name c) base) (filter (fun rel => fd_file d (under base rel) = true) (fd_under d base));
    l2 ← mapM (fun n => provided d (relative [n]) (gen_file base n)) (filter (fun n => fd_file d (gen_file base n) = true) gen_files);
    Some (concat l1 ++ concat l2)
  end.
(** [exec.input]: a hash map from the path in the sandbox *)
Definition put_input {A} (m : list (fpath * A)) (x : fpath * A) : list (fpath * A) := x :: filter (fun y => fst y <> fst x) m.
Definition sandbox {A} (l : list (fpath * A)) : list (fpath * A) := fold_left put_input l [].
(** booklet.rs:141-153; [d]: the disk as in [BookletModel] *)
Definition statement_inputs (fd : files_disk) (c : booklet_config) (s : statement) : option (list (fpath * origin)) :=
  let dir := fpath_of (chars (sm_name (sm_config s))) in
  match build_deps fd c s with
  | None => None
  | Some l => Some ((fjoin dir (relative ["statement.tex"]), OText (statement_tex s)) :: map (fun x => (fjoin dir (fst x), snd x)) l)
  end.
(** booklet.rs:109-203 [build]: the inputs of latexmk; [data]: the directory [DATA_DIR] *)
Definition template_inputs (fd : files_disk) (data : fpath) : option (list (fpath * origin)) :=
  let dir := child data "statements" in
  option_map (@concat _) (mapM (fun rel => provided fd (relative rel) (under dir rel)) (filter (fun rel => fd_file fd (under dir rel) = true) (fd_under fd dir))).
Definition booklet_inputs (d : book_disk) (fd : files_disk) (data cwd : fpath) (b : booklet) : option (list (fpath * origin)) :=
  match file_name (bk_dest b) with
  | None => None
  | Some _ =>
    l1 ← mapM (statement_inputs fd (bk_config b)) (bk_statements b);
    l2 ← template_inputs fd data;
    Some ((relative ["booklet.tex"], OText (booklet_tex d cwd b)) :: concat l1 ++ l2)
  end.
