(** * SanityModel: the sanity checks that look at the subtasks and at the solutions of a task
      (task-maker-format/src/ioi/sanity_checks/{subtasks,task,sol}.rs), and how the sanity checks are run (sanity_checks.rs)

    Definitions only.  Simplifications: a diagnostic carries the data of its message, not the text; spans are left out;
    whether a pattern of a check matches a name is a parameter (the crate wildmatch, after the normalization); the
    iteration order of the hash map of the subtasks is the order of a list. *)
From Coq Require Import Ascii String.
From stdpp Require Export base list gmap sorting.
From Verif Require Export FloatModel ChecksModel.

(** ioi/mod.rs:131-170 [SubtaskInfo]: what the checks read *)
Record sn_subtask := SnSubtask {
  ss_name : option text;          (* name *)
  ss_description : option text;   (* description, deprecated *)
  ss_score : f64;                 (* max_score *)
  ss_default : bool               (* is_default *)
}.
(** [task.subtasks] in its iteration order *)
Definition sn_subtasks := list (nat * sn_subtask).
(** solution.rs [Solution]: the path relative to the task, whether it is a symlink, the checks *)
Record sn_solution := SnSolution { so_path : text; so_symlink : bool; so_checks : list sol_check }.

(** The diagnostics of these checks *)
Inductive sn_diag :=
  | DMissingNames (l : list (nat * f64))                       (* subtasks.rs:45-48: the subtasks without a name *)
  | DInvalidName (pattern sol : text) (valid : list text)      (* subtasks.rs:94-101 *)
  | DDeprecated (st : nat)                                     (* subtasks.rs:257-264 *)
  | DNoChecks (sols : list text)                               (* sol.rs:107-114 *)
  | DMaxScore (score : f64)                                    (* task.rs:36-40 *)
  | DSameSolutions (sts : list nat)                            (* task.rs:222-227 *)
  | DNotInOrder (pairs : list (nat * nat))                     (* task.rs:258-263 *)
  | DEmptyTitle                                                (* task.rs:288-290 *)
  | DCheckFailed (name error : text).                          (* sanity_checks.rs:153-157, 171-175 *)

Global Instance nat_pair_dec : EqDecision (nat * nat) := _.

(** ** subtasks.rs *)
(** [keys().sorted()] *)
Definition sorted_ids (sts : sn_subtasks) : list nat := merge_sort le sts.*1.
(** subtasks.rs:30-64 [MissingSubtaskNames::pre_hook]; [task.subtasks[id]] cannot panic: the id is a key *)
Definition missing_subtask_names (sts : sn_subtasks) : list sn_diag :=
  if forallb (fun x => ss_default x.2) sts then []
  else
    let missing := omap (fun id =>
      match list_to_map (M := gmap nat sn_subtask) sts !! id with
      | Some s => match ss_name s with None => Some (id, ss_score s) | Some _ => None end
      | None => None
      end) (sorted_ids sts) in
    match missing with [] => [] | _ => [DMissingNames missing] end.

Section checks.
  Context (wild : text -> text -> bool).
  (** ioi/mod.rs:523-545 [find_subtasks_by_pattern_name] *)
  Definition sn_matching (sts : sn_subtasks) (pattern : text) : list nat :=
    (List.filter (fun x => match ss_name x.2 with Some name => wild pattern name | None => false end) sts).*1.
  (** subtasks.rs:83-105 [InvalidSubtaskName::pre_hook] *)
  Definition valid_names (sts : sn_subtasks) : list text :=
    omap (fun id => list_to_map (M := gmap nat sn_subtask) sts !! id ≫= ss_name) (sorted_ids sts).
  Definition invalid_subtask_name (sts : sn_subtasks) (sols : list sn_solution) : list sn_diag :=
    sols ≫= fun s => so_checks s ≫= fun c =>
      match sn_matching sts (sc_pattern c) with
      | [] => [DInvalidName (sc_pattern c) (so_path s) (valid_names sts)]
      | _ => []
      end.
  (** subtasks.rs:250-272 [DeprecatedDescriptionInSubtask::pre_hook] *)
  Definition deprecated_description (sts : sn_subtasks) : list sn_diag :=
    omap (fun x : nat * sn_subtask =>
      match ss_name x.2, ss_description x.2 with
      | Some a, Some b => if decide (a = b) then None else Some (DDeprecated x.1)
      | _, _ => None
      end) sts.

  (** ** sol.rs:80-118 [SolutionsWithNoChecks::pre_hook] *)
  Definition solutions_with_no_checks (sts : sn_subtasks) (sols : list sn_solution) : list sn_diag :=
    if existsb (fun x => match ss_name x.2 with None => true | Some _ => false end) sts then []
    else
      let l := omap (fun s => match so_checks s with
                              | _ :: _ => None
                              | [] => if so_symlink s then None else Some (so_path s)
                              end) sols in
      match l with [] => [] | _ => [DNoChecks l] end.

  (** ** task.rs *)
  (** task.rs:16 [DEFAULT_TASK_MAX_SCORE] *)
  Definition f64_hundred : f64 := f64_of_Z 100.
  (** [f64::EPSILON], 2^-52 *)
  Definition f64_epsilon : f64 := S754_finite false 4503599627370496 (-104).
  (** The crate approx: [abs_diff_eq!(a, b)] is [|a - b| <= f64::EPSILON], false with a NaN *)
  Definition abs_diff_eq (a b : f64) : bool :=
    match f64_cmp (f64_abs (f64_sub a b)) f64_epsilon with Some Lt | Some Eq => true | _ => false end.
  (** task.rs:33-43 [TaskMaxScore::pre_hook] *)
  Definition total_score (sts : sn_subtasks) : f64 := fold_left f64_add (map (fun x => ss_score x.2) sts) f64_zero.
  Definition task_max_score (sts : sn_subtasks) : list sn_diag :=
    if abs_diff_eq (total_score sts) f64_hundred then [] else [DMaxScore (total_score sts)].

  (** task.rs:154-159 [non_zero_sts] *)
  Definition non_zero (sts : sn_subtasks) : list nat := (List.filter (fun x => f64_lt f64_zero (ss_score x.2)) sts).*1.
  (** task.rs:161-168 *)
  Definition all_pairs (l : list nat) : list (nat * nat) :=
    l ≫= fun a => l ≫= fun b => if decide (a = b) then [] else [(a, b)].
  Definition initial_dependencies (sts : sn_subtasks) : gset (nat * nat) := list_to_set (all_pairs (non_zero sts)).
  (** task.rs:176-180: the range of the score; the bounds are the f64 0.0 and 1.0 *)
  Definition score_bounds (k : check_kind) : bool * bool :=
    match k with KAccepted => (true, true) | KPartialScore => (false, true) | _ => (false, false) end.
  (** task.rs:172-185: the map of a solution: the last check on a subtask wins *)
  Definition score_range (sts : sn_subtasks) (s : sn_solution) : gmap nat (bool * bool) :=
    fold_left (fun m c => fold_left (fun m st => <[st := score_bounds (sc_kind c)]> m) (sn_matching sts (sc_pattern c)) m) (so_checks s) ∅.
  (** task.rs:187-196: [v1.1 > v2.0] *)
  Definition separated (range : gmap nat (bool * bool)) (a b : nat) : bool :=
    match range !! a, range !! b with
    | Some v1, Some v2 => v1.2 && negb v2.1
    | _, _ => false
    end.
  Definition prune (sts : sn_subtasks) (deps : gset (nat * nat)) (s : sn_solution) : gset (nat * nat) :=
    let range := score_range sts s in
    fold_left (fun deps p => if separated range p.1 p.2 then deps ∖ {[p]} else deps)
      (non_zero sts ≫= fun a => non_zero sts ≫= fun b => [(a, b)]) deps.
  Definition dependencies (sts : sn_subtasks) (sols : list sn_solution) : gset (nat * nat) :=
    fold_left (prune sts) sols (initial_dependencies sts).
  (** task.rs:205-214: the group of a subtask; [None]: the [continue 'outer] *)
  Fixpoint group_loop (deps : gset (nat * nat)) (st1 : nat) (l acc : list nat) : option (list nat) :=
    match l with
    | [] => Some acc
    | st2 :: l =>
      if bool_decide ((st1, st2) ∈ deps) && bool_decide ((st2, st1) ∈ deps) then
        if bool_decide (st1 < st2) then group_loop deps st1 l (acc ++ [st2]) else None
      else group_loop deps st1 l acc
    end.
  (** task.rs:204-230 *)
  Definition same_solutions (deps : gset (nat * nat)) (l : list nat) : list sn_diag :=
    omap (fun st1 => match group_loop deps st1 l [st1] with
                     | Some sts => if bool_decide (1 < length sts) then Some (DSameSolutions (merge_sort le sts)) else None
                     | None => None
                     end) l.
  (** task.rs:232-243 *)
  Definition to_swap (deps : gset (nat * nat)) (l : list nat) : list (nat * nat) :=
    l ≫= fun a => l ≫= fun b =>
      if bool_decide (a < b) && bool_decide ((a, b) ∈ deps) && negb (bool_decide ((b, a) ∈ deps)) then [(a, b)] else [].
  (** task.rs:153-267 [SubtaskDependencies::pre_hook] *)
  Definition subtask_dependencies (sts : sn_subtasks) (sols : list sn_solution) : list sn_diag :=
    if existsb (fun s => match so_checks s with [] => false | _ => true end) sols then
      let deps := dependencies sts sols in
      same_solutions deps (non_zero sts) ++
      match to_swap deps (non_zero sts) with [] => [] | l => [DNotInOrder l] end
    else [].
End checks.
(** task.rs:287-292 [EmptyTitle::pre_hook] *)
Definition empty_title (title : text) : list sn_diag := match title with [] => [DEmptyTitle] | _ => [] end.
