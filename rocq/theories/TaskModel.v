(** * TaskModel: task-maker-format/src/ioi/format/italian_yaml/mod.rs [parse_task], cases_gen.rs [write_gen_gen], task-maker-format/src/ioi/mod.rs [clean]

    Definitions only. *)
From Verif Require Export FormatModel.

(** ** The subtasks and the testcases *)
(** ioi/mod.rs:150-175: what [SubtaskInfo] has besides what the entry says *)
Record subtask := Subtask { st_info : subtask_entry; st_testcases : list nat; st_owned : list nat }.
Record assembly := Assembly { as_subtasks : gmap nat subtask; as_testcases : gmap nat testcase_entry; as_last : option subtask }.
Definition flush_last (a : assembly) : gmap nat subtask :=
  match as_last a with Some s => <[se_id (st_info s) := s]> (as_subtasks a) | None => as_subtasks a end.
(** mod.rs:583-600: an entry; [None]: "Testcase before Subtask" *)
Definition assemble_step (a : assembly) (e : entry) : option assembly :=
  match e with
  | ESubtask s => Some (Assembly (flush_last a) (as_testcases a) (Some (Subtask s [] [])))
  | ETestcase t =>
    s ← as_last a;
    Some (Assembly (as_subtasks a) (<[te_id t := t]> (as_testcases a)) (Some (Subtask (st_info s) (st_testcases s ++ [te_id t]) (st_owned s ++ [te_id t]))))
  end.
Fixpoint assemble_run (a : assembly) (l : list entry) : option assembly :=
  match l with [] => Some a | e :: l => a ← assemble_step a e; assemble_run a l end.
(** mod.rs:580-605 *)
Definition assemble (l : list entry) : option (gmap nat subtask * gmap nat testcase_entry) :=
  a ← assemble_run (Assembly ∅ ∅ None) l; Some (flush_last a, as_testcases a).

(** ** The dependencies *)
Definition set_testcases (l : list nat) (s : subtask) : subtask := Subtask (st_info s) l (st_owned s).
(** mod.rs:611-620: a dependency of a subtask; [None]: a subtask that does not exist (the [unwrap] fails).  The result says whether something changed. *)
Definition extend_one (id : nat) (m : gmap nat subtask) (dep : nat) : option (gmap nat subtask * bool) :=
  from ← m !! dep;
  into ← m !! id;
  let l := dedup_nat (merge_sort le (st_testcases into ++ st_testcases from)) in
  Some (<[id := set_testcases l into]> m, negb (length l =? length (st_testcases into))).
Fixpoint extend_deps (id : nat) (m : gmap nat subtask) (deps : list nat) (updated : bool) : option (gmap nat subtask * bool) :=
  match deps with
  | [] => Some (m, updated)
  | d :: deps => '(m, u) ← extend_one id m d; extend_deps id m deps (updated || u)
  end.
(** mod.rs:609-622: a pass over the subtasks; [keys]: the order of the keys *)
Fixpoint closure_pass (keys : list nat) (m : gmap nat subtask) (updated : bool) : option (gmap nat subtask * bool) :=
  match keys with
  | [] => Some (m, updated)
  | id :: keys => s ← m !! id; '(m, u) ← extend_deps id m (se_deps (st_info s)) updated; closure_pass keys m u
  end.
(** mod.rs:607-626: the loop.  [order]: the order of the keys in each pass, since the keys of a hash map have no order; [fuel] bounds the passes. *)
Fixpoint closure (order : nat -> list nat) (fuel pass : nat) (m : gmap nat subtask) : option (gmap nat subtask) :=
  match fuel with
  | 0 => None
  | S fuel => '(m, updated) ← closure_pass (order pass) m false; if updated : bool then closure order fuel (pass + 1) m else Some m
  end.

(** ** The aggregator: mod.rs:628-632 *)
Inductive aggregator := AggMin | AggSum.
Definition choose_aggregator (score_type : option aggregator) (m : gmap nat subtask) : aggregator :=
  match score_type with Some a => a | None => if decide (size m = 1) then AggSum else AggMin end.
(** mod.rs:639-653: [score_type_parameters]; the testcases are numbers here, not [{:03}] *)
Definition score_parameters (m : gmap nat subtask) : list (text * list nat) :=
  omap (fun id => s ← m !! id; Some (se_score (st_info s), st_testcases s)) (merge_sort le (elements (dom m))).

(** ** The files of the task that are written *)
Notation files := (gmap text text).
Definition cookie : text := chars "tm-allow-delete".
Fixpoint contains (p t : text) : bool :=
  bool_decide (is_Some (literal p t)) || match t with [] => false | _ :: t => contains p t end.
(** mod.rs:714-718 [is_tm_deletable] *)
Definition deletable (content : text) : bool := contains cookie content.
Definition newline : text := [10%N].
(** cases_gen.rs:242-244 *)
Definition generated_header : text :=
  chars "# Generated by task-maker. Do not edit!" ++ newline ++ chars "# " ++ cookie ++ newline
  ++ chars "# Removing or changing the line above will prevent task-maker from touching this file again." ++ newline.
Section write_gen.
  (** [show_score]: [Display] of the score; [show_constraint]: [Debug] of a constraint; [source_name]: the name of a source file *)
  Context (show_score : text -> text) (show_constraint : constraint -> text) (source_name : text -> text).
  Definition join_words (l : list text) : text := match l with [] => [] | w :: l => w ++ flat_map (fun x => 32%N :: x) l end.
  (** cases_gen.rs:251-289: the lines of an entry *)
  Definition entry_lines (constraints : list (list constraint)) (e : entry) : list text :=
    match e with
    | ESubtask s =>
      [[]; chars "# Subtask " ++ chars (pretty (se_id s)); chars "#ST: " ++ show_score (se_score s)]
      ++ (match se_name s with Some n => [chars "#STNAME: " ++ n] | None => [] end)
      ++ (match constraints !! se_id s with Some l => map (fun c => chars "# " ++ show_constraint c) l | None => [] end)
    | ETestcase t =>
      [chars "# Testcase " ++ chars (pretty (te_id t));
       match te_input t with StaticIn p => chars "#COPY: " ++ p | CustomIn s args => source_name s ++ [32%N] ++ join_words args end]
    end.
  (** cases_gen.rs:242-289: the content *)
  Definition gen_content (constraints : list constraint) (st_constraints : list (list constraint)) (l : list entry) : text :=
    generated_header ++ newline
    ++ (match constraints with [] => [] | _ => chars "# Constraints:" ++ newline ++ flat_map (fun c => chars "# " ++ show_constraint c ++ newline) constraints end)
    ++ flat_map (fun t => t ++ newline) (flat_map (entry_lines st_constraints) l).
End write_gen.
(** cases_gen.rs:233-241 and 290-291 [write_gen_gen]; mod.rs:635-671 for task.yaml: a file is written if it does not exist or has the cookie *)
Definition may_write (path : text) (fs : files) : bool := match fs !! path with Some c => deletable c | None => true end.
Definition write_if_allowed (path content : text) (fs : files) : files := if may_write path fs then <[path := content]> fs else fs.

Section parse_task.
  (** [parse_yaml orig content]: the score type of the task; [setup]: the graders, the manager or the checker, the official solution and the validator can be
      found (parts of [parse_task] that write nothing); [cases], [gens]: the entries of gen/cases.gen and gen/GEN; [cases_content]: the gen/GEN written;
      [statics]: the entries of input/; [yaml_content]: the task.yaml written, after the header; [late]: the statements can be made *)
  Context (parse_yaml : bool -> text -> option (option aggregator)) (setup late : files -> bool)
    (cases gens : files -> text -> option (list entry)) (cases_content : text -> text) (statics : files -> list entry)
    (yaml_content : text -> aggregator -> list (text * list nat) -> text).
  Record task := Task { tk_subtasks : gmap nat subtask; tk_testcases : gmap nat testcase_entry; tk_aggregator : aggregator }.
  (** mod.rs:553-577: the entries and the files after *)
  Definition task_entries (dry_run : bool) (fs : files) : files * option (list entry) :=
    match fs !! chars "gen/cases.gen" with
    | Some c =>
      match cases fs c with
      | Some l => (if dry_run then fs else write_if_allowed (chars "gen/GEN") (cases_content c) fs, Some l)
      | None => (fs, None)
      end
    | None =>
      match fs !! chars "gen/GEN" with
      | Some c => (fs, gens fs c)
      | None => (fs, Some (statics fs))
      end
    end.
  (** mod.rs:628-706: the rest, given the subtasks *)
  Definition finish_task (dry_run : bool) (yaml : text) (orig : bool) (score_type : option aggregator) (m : gmap nat subtask) (tcs : gmap nat testcase_entry) (fs : files) : files * option task :=
    let agg := choose_aggregator score_type m in
    if orig then
      let fs' := if dry_run then fs else write_if_allowed (chars "task.yaml") (generated_header ++ yaml_content yaml agg (score_parameters m)) fs in
      (fs', if late fs' then Some (Task m tcs agg) else None)
    else if existsb (fun s => match se_deps (st_info s) with [] => false | _ => true end) (map snd (map_to_list m)) then (fs, None)
    else (fs, if late fs then Some (Task m tcs agg) else None).
  (** mod.rs:490-706 [parse_task]; [None]: an error *)
  Definition parse_task (dry_run : bool) (order : nat -> list nat) (fuel : nat) (fs : files) : files * option task :=
    match (match fs !! chars "task.yaml.orig" with Some c => Some (true, c) | None => match fs !! chars "task.yaml" with Some c => Some (false, c) | None => None end end) with
    | None => (fs, None)
    | Some (orig, c) =>
      match parse_yaml orig c with
      | None => (fs, None)
      | Some score_type =>
        if setup fs then
          let '(fs, l) := task_entries dry_run fs in
          match (l ← l; '(m, tcs) ← assemble l; m ← closure order fuel 0 m; Some (m, tcs)) with
          | Some (m, tcs) => finish_task dry_run c orig score_type m tcs fs
          | None => (fs, None)
          end
        else (fs, None)
      end
    end.
End parse_task.

(** ** Cleaning *)
(** The glob [dir/*.txt] *)
Definition slash : N := 47%N.
Definition txt_in (dir path : text) : bool :=
  match literal (dir ++ [slash]) path with
  | Some name => bool_decide (~ slash ∈ name) && bool_decide (is_Some (literal (rev (chars ".txt")) (rev name)))
  | None => false
  end.
(** ioi/mod.rs:432-440: the file is used by a testcase with a static file.  The two alternatives of the pattern bind the same variable: if the input is
    static its path is the one compared, whatever the output is. *)
Definition static_match (path : text) (t : testcase_entry) : bool :=
  match te_input t, te_output t with
  | StaticIn p, _ => bool_decide (p = path)
  | _, StaticOut p => bool_decide (p = path)
  | _, _ => false
  end.
Definition used_by_static (tcs : gmap nat testcase_entry) (path : text) : bool := existsb (static_match path) (map snd (map_to_list tcs)).
(** ioi/mod.rs:417-511 [clean]; [custom_checker]: a batch task with a custom checker *)
Definition under (dir path : text) : bool := bool_decide (is_Some (literal (dir ++ [slash]) path)).
Definition remove_generated (generated from : text) (fs : files) : files :=
  match fs !! from, fs !! generated with Some _, Some c => if deletable c then delete generated fs else fs | _, _ => fs end.
Definition clean_task (custom_checker : bool) (tcs : gmap nat testcase_entry) (fs : files) : files :=
  let fs := filter (fun '(p, _) => negb ((txt_in (chars "input") p || txt_in (chars "output") p) && negb (used_by_static tcs p)) = true) fs in
  let fs := filter (fun '(p, _) => under (chars "bin") p = false) fs in
  let fs := if custom_checker then delete (chars "check/checker") (delete (chars "cor/correttore") fs) else fs in
  remove_generated (chars "task.yaml") (chars "task.yaml.orig") (remove_generated (chars "gen/GEN") (chars "gen/cases.gen") fs).
