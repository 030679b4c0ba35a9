(** * BookletSpec2: the files that the compilation of a booklet needs *)
From Verif Require Import BookletModel BookletModel2 LangSpec.
From Coq Require Import Ascii String.
From stdpp Require Import base list.
Local Open Scope nat_scope.

(** The paths under a directory have the names of files and directories *)
Definition good_files (d : files_disk) : Prop := forall dir rel, rel ∈ fd_under d dir -> rel <> [] /\ Forall plain rel.
(** [rel] is the path of a file under the directory [dir] *)
Definition file_under (d : files_disk) (dir : fpath) (rel : list string) : Prop := rel ∈ fd_under d dir /\ fd_file d (under dir rel) = true.
Definition has_ext (p : fpath) (e : string) : Prop := extension_of p = chars e.
(** A file .pdf that comes from a source next to it *)
Definition made_from_source (d : files_disk) (p : fpath) : Prop :=
  exists r, fd_canon d p = Some r /\ (fd_exists d (with_ext r "asy") = true \/ fd_exists d (with_ext r "tex") = true).
Definition is_logo (c : booklet_config) (p : fpath) : Prop :=
  exists l n, bc_logo c = Some l /\ file_name (fpath_of (chars l)) = Some n /\ file_name p = Some n.
(** The figure made from [p] is used: the statement has its path *)
Definition uses_figure (s : statement) (rel : list string) : Prop := occurs (chars (show_path (with_ext (relative rel) "pdf"))) (sm_content s).

(** [q] is a path in the directory of the statement, in the sandbox; [base]: the directory of the source of the statement *)
Inductive stmt_dep (d : files_disk) (c : booklet_config) (s : statement) (base : fpath) : fpath -> origin -> Prop :=
  | dep_figure rel : file_under d base rel -> has_ext (under base rel) "asy" -> uses_figure s rel ->
      stmt_dep d c s base (with_ext (relative rel) "pdf") (OFigure (under base rel))
  | dep_pdf rel : file_under d base rel -> has_ext (under base rel) "pdf" -> is_logo c (under base rel) \/ ~ made_from_source d (under base rel) ->
      stmt_dep d c s base (relative rel) (OFile (under base rel))
  | dep_file rel : file_under d base rel -> ~ has_ext (under base rel) "asy" -> ~ has_ext (under base rel) "pdf" ->
      stmt_dep d c s base (relative rel) (OFile (under base rel))
  | dep_gen n : n ∈ gen_files -> fd_file d (gen_file base n) = true -> stmt_dep d c s base (relative [n]) (OFile (gen_file base n)).
(** A file that is needed cannot be read *)
Inductive unreadable (d : files_disk) (c : booklet_config) (s : statement) (base : fpath) : Prop :=
  | bad_file q p : stmt_dep d c s base q (OFile p) -> fd_provides d p = false -> unreadable d c s base
  | bad_real rel : file_under d base rel -> has_ext (under base rel) "pdf" -> ~ is_logo c (under base rel) -> fd_canon d (under base rel) = None -> unreadable d c s base
  | bad_figure q p : stmt_dep d c s base q (OFigure p) -> asy_inputs d p = None -> unreadable d c s base.

(** Where the statement [s] is in the sandbox *)
Definition place (s : statement) (q : fpath) : fpath := fjoin (fpath_of (chars (sm_name (sm_config s)))) q.
(** [q] should be [o] in the sandbox of the booklet *)
Inductive wanted (d : book_disk) (fd : files_disk) (data cwd : fpath) (b : booklet) : fpath -> origin -> Prop :=
  | wanted_main : wanted d fd data cwd b (relative ["booklet.tex"]) (OText (booklet_tex d cwd b))
  | wanted_statement s : s ∈ bk_statements b -> wanted d fd data cwd b (place s (relative ["statement.tex"])) (OText (statement_tex s))
  | wanted_dep s base q o : s ∈ bk_statements b -> parent (sm_path s) = Some base -> stmt_dep fd (bk_config b) s base q o -> wanted d fd data cwd b (place s q) o
  | wanted_template rel : file_under fd (child data "statements") rel -> wanted d fd data cwd b (relative rel) (OFile (under (child data "statements") rel)).
