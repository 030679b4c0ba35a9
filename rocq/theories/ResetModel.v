(** * ResetModel: src/tools/reset.rs

    Definitions only.

    - The file system: the tree of the storage, and the permissions of the directories outside of it that a symbolic
      link of the tree points to.  The process is not root; permissions are those of the owner; inside the tree all
      belongs to the user.  A link to something that is not a directory outside of the tree has no target here (a link
      to a directory of the tree itself is left out).
    - walkdir lists a directory before the directory is given to the filter, and goes on after an error;
      [remove_dir_all] of the standard library does not follow links and stops at the first error.
    - A store that is itself a symbolic link is left out.  Text is ASCII. *)
From stdpp Require Export gmap.
From Coq Require Export Ascii String.
From stdpp Require Export list.

Record perm := Perm { p_r : bool; p_w : bool; p_x : bool }.
(** reset.rs:54 [0o755] *)
Definition rwx : perm := Perm true true true.
Notation out_dir := positive.
Inductive node :=
  | NFile
  | NLink (target : option out_dir)
  | NDir (m : perm) (entries : list (string * node)).
Inductive store := SAbsent | SFile | SDir (m : perm) (entries : list (string * node)).
(** A directory outside: its permissions, and whether the user owns it. *)
Record outside_dir := OutDir { o_perm : perm; o_owned : bool }.
Record world := World {
  w_store : store;
  w_outside : gmap out_dir outside_dir;
  w_parent : bool               (* entries can be removed from the directory of the store *)
}.

(** ** The answer *)
(** [char::is_whitespace], on ASCII *)
Definition is_white (c : ascii) : bool :=
  let n := N_of_ascii c in (9 <=? n)%N && (n <=? 13)%N || (n =? 32)%N.
(** [str::trim] *)
Fixpoint trim_start (s : list ascii) : list ascii :=
  match s with
  | c :: r => if is_white c then trim_start r else s
  | [] => []
  end.
Definition trim (s : list ascii) : list ascii := rev (trim_start (rev (trim_start s))).
(** [str::to_lowercase], on ASCII *)
Definition lower (c : ascii) : ascii :=
  let n := N_of_ascii c in if (65 <=? n)%N && (n <=? 90)%N then ascii_of_N (n + 32) else c.
(** reset.rs:41 *)
Definition confirmed (line : list ascii) : bool := bool_decide (map lower (trim line) = ["y"%char]).

(** ** The first pass (reset.rs:49-62): the new tree and the targets that are made 755 *)
Fixpoint writable (n : node) : node * list out_dir :=
  match n with
  | NFile => (NFile, [])
  | NLink (Some o) => (NLink (Some o), [o])
  | NLink None => (NLink None, [])
  | NDir m es =>
    if p_r m then
      let r := (fix go (es : list (string * node)) : list (string * node) * list out_dir :=
        match es with
        | [] => ([], [])
        | (name, n) :: es =>
          let '(n', l) := writable n in
          let '(es', ls) := go es in ((name, n') :: es', l ++ ls)
        end) es in
      (NDir rwx r.1, r.2)
    else (NDir rwx es, [])
  end.
(** [set_permissions] of the target of a link: only the owner can; a failure is only printed. *)
Definition chmod_out (outside : gmap out_dir outside_dir) (o : out_dir) : gmap out_dir outside_dir :=
  match outside !! o with
  | Some d => if o_owned d then <[o := OutDir rwx true]> outside else outside
  | None => outside
  end.

(** ** The second pass (reset.rs:64): [remove_dir_all].  What is left of the entries of a directory, and whether all
    were removed. *)
Fixpoint remove (n : node) : list (string * node) * bool :=
  match n with
  | NFile | NLink _ => ([], true)
  | NDir m es =>
    if p_r m then
      (fix go (es : list (string * node)) : list (string * node) * bool :=
        match es with
        | [] => ([], true)
        | (name, n) :: rest =>
          match n with
          | NFile | NLink _ => if p_w m && p_x m then go rest else (es, false)
          | NDir m' _ =>
            if p_x m then
              match remove n with
              | (lft, true) => if p_w m then go rest else ((name, NDir m' lft) :: rest, false)
              | (lft, false) => ((name, NDir m' lft) :: rest, false)
              end
            else (es, false)
          end
        end) es
    else (es, false)
  end.

Inductive outcome := OK | ErrStdin | ErrMissing.
(** reset.rs:23-69 [main_reset]; [line] is what [read_line] returns, if it works. *)
Definition main_reset (line : option (list ascii)) (w : world) : outcome * world :=
  match line with
  | None => (ErrStdin, w)
  | Some line =>
    if confirmed line then
      match w_store w with
      | SAbsent => (ErrMissing, w)
      | SFile => (OK, w)                                   (* remove_dir_all fails *)
      | SDir m es =>
        let '(t, links) := writable (NDir m es) in
        let outside := fold_left chmod_out links (w_outside w) in
        let '(lft, all) := remove t in
        let st := if all && w_parent w then SAbsent
                  else match t with NDir m' _ => SDir m' lft | _ => SAbsent end in
        (OK, World st outside (w_parent w))
      end
    else (OK, w)
  end.
