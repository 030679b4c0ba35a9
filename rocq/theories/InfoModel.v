(** * InfoModel: task-info and copy-competition-files (task-maker-format/src/ioi/task_info.rs,
      src/tools/copy_competition_files.rs)

    Definitions only.  Simplifications: the file system is a map from paths (lists of components, from the directory of the
    contest) to files and directories, without links and without errors of the disk; names are UTF-8 (otherwise
    task_info.rs:124 panics); a source and a destination of a copy are distinct; what mime_guess says is a parameter; the
    HashMap of the subtasks and the listing of a directory are lists, in the order of the iteration; loading the tasks and
    evaluating them are parameters. *)
From Coq Require Import NArith.
From stdpp Require Export gmap strings.
From Verif Require Export FloatModel.

Notation fpath := (list string).
Inductive fnode := FDir | FFile (b : list N).
Notation files := (gmap fpath fnode).
Definition is_file (p : fpath) (f : files) : bool := match f !! p with Some (FFile _) => true | _ => false end.
Definition is_dir (p : fpath) (f : files) : bool := match f !! p with Some FDir => true | _ => false end.

(** ioi/mod.rs:90-160 [IOITask], [SubtaskInfo]: what is read; a booklet is its language and its destination *)
Record info_task := InfoTask { it_path : fpath; it_name : string; it_title : string; it_time : option f64; it_memory : option N;
  it_subtasks : list (nat * (f64 * list nat)); it_booklets : list (string * fpath) }.
(** task_info.rs:10-77 *)
Record info_file := InfoFile { if_name : string; if_type : string; if_path : fpath }.
Record task_info := TaskInfo { ti_version : N; ti_name : string; ti_title : string; ti_max_score : f64; ti_subtasks : list (f64 * N);
  ti_time : option f64; ti_memory : option N; ti_statements : list info_file; ti_attachments : list info_file }.

(** ioi/mod.rs:246-248 [path_of]: [strip_prefix], or the path itself *)
Definition path_of (t : info_task) (p : fpath) : fpath :=
  if bool_decide (take (length (it_path t)) p = it_path t) then drop (length (it_path t)) p else p.
(** [sorted_by_key]: a stable sort *)
Fixpoint insert_by_id {A} (x : nat * A) (l : list (nat * A)) : list (nat * A) :=
  match l with [] => [x] | y :: l' => if Nat.leb x.1 y.1 then x :: l else y :: insert_by_id x l' end.
Definition sort_by_id {A} (l : list (nat * A)) : list (nat * A) := foldr insert_by_id [] l.

Section info.
  Context (mime : fpath -> option string) (listing : files -> fpath -> list string).
  (** task_info.rs:104-112 *)
  Definition statement_info (t : info_task) (b : string * fpath) : info_file :=
    InfoFile b.1 (default "UNKNOWN" (mime b.2)) (path_of t b.2).
  (** task_info.rs:113-133: no attachments if att/ cannot be read *)
  Definition attachment_info (t : info_task) (n : string) : info_file :=
    InfoFile n (default "UNKNOWN" (mime (it_path t ++ ["att"; n]))) (path_of t (it_path t ++ ["att"; n])).
  Definition attachments (t : info_task) (f : files) : list info_file :=
    if is_dir (it_path t ++ ["att"]) f
    then map (attachment_info t) (filter (fun n => is_file (it_path t ++ ["att"; n]) f = true) (listing f (it_path t ++ ["att"])))
    else [].
  (** task_info.rs:79-137 [IOITaskInfo::new] *)
  Definition new_info (t : info_task) (f : files) : task_info :=
    TaskInfo 1 (it_name t) (it_title t)
      (fold_left (fun sum st => f64_add sum st.2.1) (it_subtasks t) f64_zero)
      (map (fun st => (st.2.1, N.of_nat (length st.2.2))) (sort_by_id (it_subtasks t)))
      (it_time t) (it_memory t)
      (map (statement_info t) (it_booklets t))
      (attachments t f).

  (** ** copy_competition_files.rs *)
  (** [fs::create_dir] if the path does not exist *)
  Definition ensure_dir (d : fpath) (x : string) (f : files) : option files :=
    match f !! (d ++ [x]) with Some _ => Some f | None => if is_dir d f then Some (<[d ++ [x] := FDir]> f) else None end.
  (** [fs::copy] to a file of the directory [d] *)
  Definition copy_to (src d : fpath) (x : string) (f : files) : option files :=
    match f !! src with
    | Some (FFile b) => if is_dir d f then match f !! (d ++ [x]) with Some FDir => None | _ => Some (<[d ++ [x] := FFile b]> f) end else None
    | _ => None
    end.
  (** copy_competition_files.rs:85-102: the path, joined to the directory of the task, is copied under its base name; the
      [unwrap] of a path without a base name is an error here *)
  Definition copy_one (task dest : fpath) (x : info_file) (f : files) : option files :=
    base ← last (if_path x); copy_to (task ++ if_path x) dest base f.
  Fixpoint copy_all (task dest : fpath) (l : list info_file) (f : files) : option files :=
    match l with [] => Some f | x :: l => f ← copy_one task dest x f; copy_all task dest l f end.
  (** 78-103 [copy_files] *)
  Definition copy_files (i : task_info) (task : fpath) (dest_dir : fpath) (dest : string) (f : files) : option files :=
    f ← ensure_dir dest_dir dest f;
    f ← copy_all task (dest_dir ++ [dest]) (ti_statements i) f;
    copy_all task (dest_dir ++ [dest]) (ti_attachments i) f.

  (** 53-76: each task is evaluated (its booklets are built), and then its files are copied from the directory called as
      the task; the trace has the file system at the start of each copy *)
  Definition competition : string := "competition-files".
  Fixpoint copy_tasks (eval : info_task -> files -> option files) (ts : list info_task) (f : files) : option (list files * files) :=
    match ts with
    | [] => Some ([], f)
    | t :: ts =>
      f1 ← eval t f;
      f2 ← copy_files (new_info t f1) [it_name t] [competition] (it_name t) f1;
      '(tr, f3) ← copy_tasks eval ts f2;
      Some (f1 :: tr, f3)
    end.
  (** 32-76 [copy_competition_files_main] *)
  Definition copy_main (eval : info_task -> files -> option files) (load : files -> option (list info_task)) (f : files) : option (list files * files) :=
    f ← ensure_dir [] competition f;
    ts ← load f;
    copy_tasks eval ts f.
End info.
