(** * LangSpec: what the dependencies of a source file are *)
From Verif Require Import LangModel.
From Coq Require Import Ascii String.
From stdpp Require Import base list.

(** The files that are reached from [root]: [extract] gives the imports of a file, the existing ones are followed *)
Inductive reached (d : disk) (extract : fpath -> list (fpath * fpath)) (base root : fpath) : fpath -> Prop :=
  | reached_root : reached d extract base root root
  | reached_import p l s : reached d extract base root p -> (l, s) ∈ extract p -> d_exists d (fjoin base l) = true ->
      reached d extract base root (fjoin base l).

(** A directory and the names of its files *)
Definition plain (n : string) : Prop := n <> "." /\ n <> ".." /\ n <> "" /\ "/"%char ∉ chars n.
Definition in_dir (dir : list string) (n : string) : fpath := FPath true (dir ++ [n]).
Definition local_name (n : string) : fpath := FPath false [n].
(** [names d p]: the names that the file [p] includes or imports; [needed]: those that the program needs *)
Inductive needed (d : disk) (names : fpath -> list string) (dir : list string) (root : string) : string -> Prop :=
  | needed_root n : n ∈ names (in_dir dir root) -> needed d names dir root n
  | needed_dep m n : needed d names dir root m -> d_exists d (in_dir dir m) = true -> n ∈ names (in_dir dir m) -> needed d names dir root n.
Definition included (d : disk) (p : fpath) : list string :=
  match d_text d p with Some c => map string_of_list_ascii (includes c) | None => [] end.
Definition imported (d : disk) (p : fpath) : list string :=
  match d_text d p with Some c => map (fun m => string_of_list_ascii m +:+ ".py") (imports_of c) | None => [] end.

(** A name that is not the name of a file of the directory and does not lead to a file from there (for example [bits/stdc++.h]) *)
Definition missing (d : disk) (dir : list string) (m : string) : Prop :=
  d_exists d (fjoin (FPath true dir) (fpath_of (chars m))) = false /\ d_exists d (in_dir dir m) = false.
(** The sources of a directory include only files of the directory and files that are not there *)
Definition flat_names (d : disk) (names : fpath -> list string) (dir : list string) : Prop :=
  forall n m, m ∈ names (in_dir dir n) -> plain m \/ missing d dir m.

(** How the compiler looks for ["q"] included by the file [p] of the sandbox: next to that file *)
Definition looked_up (p q : fpath) : fpath := FPath false (removelast (p_comps p) ++ p_comps q).

(** The text [p] occurs in [l] *)
Definition occurs (p l : text) : Prop := exists a b, l = a ++ p ++ b.
(** The lines [ps] (or the elements of a list) separated by a character *)
Fixpoint join_with (sep : ascii) (ps : list text) : text :=
  match ps with [] => [] | [p] => p | p :: ps => p ++ sep :: join_with sep ps end.

(** The extension of a file name: what follows its last dot, if something precedes it *)
Definition has_extension (name : string) (ext : text) : Prop := exists stem, stem <> [] /\ "."%char ∉ ext /\ chars name = stem ++ "."%char :: ext.
(** The graders in the language [l] *)
Definition graders_of (l : lang) (gs : list (file_uuid * fpath)) : list (file_uuid * fpath) := filter (fun g => detect_language (snd g) = Some l) gs.
(** The program that a command starts and the arguments that it sees: an interpreter runs its first argument *)
Definition program_sees (c : command) (args : list string) : option (string * list string) :=
  match c, args with
  | Local e, _ => Some (e, args)
  | System _, p :: rest => Some (p, rest)
  | System _, [] => None
  end.

(** [t] is [m] without the white space around it *)
Definition blank (c : ascii) : Prop := c ∈ [" "; "009"; "010"; "011"; "012"; "013"]%char.
Definition trimmed (m t : text) : Prop :=
  (exists a b, m = a ++ t ++ b /\ Forall blank a /\ Forall blank b) /\ (forall c r, t = c :: r -> ~ blank c) /\ (forall c r, t = r ++ [c] -> ~ blank c).
(** The extensions of the languages, lower case *)
Definition extension_table : list (string * lang) :=
  [("cpp", LCpp); ("cc", LCpp); ("c++", LCpp); ("c", LC); ("py", LPython); ("sh", LShell); ("pas", LPascal); ("rs", LRust); ("cs", LCSharp); ("js", LJS); ("cjs", LJS); ("mjs", LJS)].
