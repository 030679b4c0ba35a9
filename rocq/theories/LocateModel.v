(** * LocateModel: the search for the directory of a task (task-maker-format/src/detect_format.rs)

    Definitions only.  A path is the list of its components, the last one last; [absolute]: it starts with the root.
    What is in a directory depends on the directory that the system reaches, without symbolic links: [resolve]. *)
From stdpp Require Import strings list.

Inductive format := IOI | Terry.
(** What a directory looks like for a format: [NotValid]: there is no task.yaml ([is_valid] is false: ioi/mod.rs:236-238, terry/mod.rs:145-147);
    otherwise the result of [new] *)
Inductive parsed := NotValid | Broken (cause : string) | Parsed.
Record path := Path { absolute : bool; comps : list string }.

(** The directory that the system reaches with the path *)
Definition resolve (p : list string) : list string := foldl (fun d c => if decide (c = "..") then take (length d - 1) d else d ++ [c]) [] p.
(** [Path::join] of an absolute path with a relative one *)
Definition path_join (a : list string) (p : path) : list string := if absolute p then comps p else a ++ comps p.
(** [Path::parent]: the path without its last component, also if it is ..; the root has none *)
Definition parent (p : list string) : option (list string) := match p with [] => None | _ => Some (take (length p - 1) p) end.

Inductive result := Found (f : format) (dir : list string) | Ambiguous (dir : list string) | NoTask (fails : list (format * list string * string)).
Section find.
  (** What is in each directory *)
  Context (is_ioi is_terry : list string -> parsed).
  Definition try_ioi (base : list string) : bool * list (format * list string * string) :=
    match is_ioi (resolve base) with NotValid => (false, []) | Broken e => (false, [(IOI, base, e)]) | Parsed => (true, []) end.
  Definition try_terry (base : list string) : bool * list (format * list string * string) :=
    match is_terry (resolve base) with NotValid => (false, []) | Broken e => (false, [(Terry, base, e)]) | Parsed => (true, []) end.
  (** detect_format.rs:18-47 *)
  Fixpoint find_from (depth : nat) (base : list string) (fails : list (format * list string * string)) : result :=
    match depth with
    | 0 => NoTask fails
    | S depth =>
      let '(ioi, e1) := try_ioi base in
      let '(terry, e2) := try_terry base in
      if ioi && terry then Ambiguous base
      else if ioi then Found IOI base
      else if terry then Found Terry base
      else match parent base with
           | Some base => find_from depth base (fails ++ e1 ++ e2)
           | None => NoTask (fails ++ e1 ++ e2)
           end
    end.
  (** detect_format.rs:9-17; [cwd]: the variable PWD, or the working directory *)
  Definition find_task (cwd : list string) (base : option path) (max_depth : nat) : result :=
    find_from max_depth (match base with Some p => path_join cwd p | None => cwd end) [].
End find.
