(** * BadCaseModel: the tool that looks for an input on which a solution fails

    Models src/tools/find_bad_case/dag.rs: [patch_task_for_batch] (lines 37-111), [generator_args_for_testcase] (114-121)
    and [patch_dag] (128-228), on the tasks and the DAGs of [BuildModel].

    Simplifications:
    - [fastrand::i32] is a function that gives the seed of each testcase of the batch.
    - The order in which a HashMap is visited is a parameter.
    - The description of an execution (batch.rs:44-49, communication.rs:128-135, 183-188) is computed from the message
      the execution is bound to; [nm] is [SourceFile::name].
    - Only IOI tasks: for a Terry task the tool stops with an error (dag.rs:106-108).
    - No [warn!]. *)
From Verif Require Export BuildModel.
From stdpp Require Export pretty.
From Coq Require Import Ascii String.
From stdpp Require Import base list.

(** ** Text *)
(** [str::rfind] of a pattern: the position of its last occurrence *)
Fixpoint rfind (pat s : string) : option nat :=
  match s with
  | EmptyString => if String.prefix pat "" then Some 0 else None
  | String _ s' =>
    match rfind pat s' with
    | Some i => Some (S i)
    | None => if String.prefix pat s then Some 0 else None
    end
  end.
(** [&s[a..b]]: a panic if [a > b] *)
Definition slice (s : string) (a b : nat) : res string :=
  if decide (a <= b) then ROk (String.substring a (b - a) s) else RPanic.
(** [str::parse::<u32>] *)
Definition digit (c : ascii) : option nat :=
  if decide (48 <= nat_of_ascii c <= 57) then Some (nat_of_ascii c - 48) else None.
Fixpoint parse_digits (acc : nat) (s : string) : option nat :=
  match s with
  | EmptyString => Some acc
  | String c s => match digit c with
                  | Some d => parse_digits (10 * acc + d) s
                  | None => None
                  end
  end.
Definition fits_u32 (n : nat) : bool := bool_decide (N.of_nat n < 4294967296)%N.
Definition strip_plus (s : string) : string :=
  match s with String c s' => if decide (c = "+"%char) then s' else s | EmptyString => s end.
Definition parse_u32 (s : string) : option nat :=
  match strip_plus s with
  | EmptyString => None
  | body => match parse_digits 0 body with Some n => if fits_u32 n then Some n else None | None => None end
  end.

(** ** Paths *)
(** [Path::components]: the root, the first component (even if it is a dot), and the others that are not empty and not a dot *)
Fixpoint split_slash (s : string) : list string :=
  match s with
  | EmptyString => [""]
  | String c s' =>
    if decide (c = "/"%char) then "" :: split_slash s'
    else match split_slash s' with x :: l => String c x :: l | [] => [String c ""] end
  end.
Definition ordinary (x : string) : bool := negb (bool_decide (x = "")) && negb (bool_decide (x = ".")).
Definition components (s : string) : list string :=
  match split_slash s with
  | [] => []
  | x :: l => (if decide (x = "") then (if decide (s = "") then [] else ["/"]) else [x]) ++ List.filter ordinary l
  end.
(** [Path::strip_prefix] *)
Fixpoint strip_components (base p : list string) : option (list string) :=
  match base, p with
  | [], _ => Some p
  | b :: base, x :: p => if decide (b = x) then strip_components base p else None
  | _ :: _, [] => None
  end.
(** [Path::starts_with] a single component *)
Definition first_is (x : string) (p : list string) : bool :=
  match p with y :: _ => bool_decide (x = y) | [] => false end.
(** [Path::file_name] *)
Definition file_name (p : list string) : option string :=
  match last p with Some x => if decide (x = "..") then None else if decide (x = "/") then None else Some x | None => None end.

(** ** The batch *)
(** dag.rs:13-26 *)
Record case_data := CaseData { cd_args : list string; cd_seed : nat; cd_input : string; cd_output : string; cd_correct : string }.
Definition batch := gmap nat case_data.

(** dag.rs:114-121 [generator_args_for_testcase] *)
Definition generator_args (args : list string) (seed : nat) : list string :=
  map (fun a => if decide (a = "{}") then pretty seed else a) args.

(** dag.rs:58, [as TestcaseId] *)
Definition case_id (batch_size batch_index i : nat) : nat :=
  N.to_nat ((N.of_nat batch_index * N.of_nat batch_size + N.of_nat i) mod 4294967296).
(** dag.rs:63-88 *)
Definition case_for (dir : string) (args : list string) (seed : nat) : case_data :=
  CaseData (generator_args args seed) seed
    (path_join dir ("testcase-" +:+ pretty seed +:+ "/input.txt"))
    (path_join dir ("testcase-" +:+ pretty seed +:+ "/output.txt"))
    (path_join dir ("testcase-" +:+ pretty seed +:+ "/correct_output.txt")).
(** dag.rs:47-53: the first testcase, in the order of the map, that has a generator *)
Fixpoint find_template (vals : list btestcase) : option (source * output_generator) :=
  match vals with
  | [] => None
  | BTestcase (ICustom s _) o :: _ => Some (s, o)
  | _ :: l => find_template l
  end.
(** dag.rs:36-111 [patch_task_for_batch]; [vals]: the testcases of the task, [ord]: the order of the new ones,
    [validator]: [input_validator_generator.generate(Some(0))] *)
Definition patch_task (t : btask) (validator : input_validator) (vals : list btestcase) (ord : list nat -> list nat)
    (args : list string) (size index : nat) (dir : string) (seed : nat -> nat) : res (btask * batch) :=
  match find_template vals with
  | None => RErr
  | Some (gen, out) =>
    let tcs : gmap nat btestcase := fold_left (fun m i =>
        <[case_id size index i := BTestcase (ICustom gen (generator_args args (seed i))) out]> m) (seq 0 size) ∅ in
    let b : batch := fold_left (fun m i => <[case_id size index i := case_for dir args (seed i)]> m) (seq 0 size) ∅ in
    let ids := ord (map_to_list tcs).*1 in
    ROk (BTask (bk_path t) (bk_type t) (bk_time t) (bk_memory t) (bk_infile t) (bk_outfile t)
           [BSubtask 0 (Some ("batch-" +:+ pretty index)) validator ids ids] tcs, b)
  end.

(** ** The DAG *)
(** dag.rs:173-204 of task-maker-dag: [WriteToCallback] *)
Record write_to := WriteTo { wt_dest : string; wt_exe : bool; wt_allow : bool }.
Record patched := Patched { pd_groups : list (group_uuid * group); pd_written : list (file_uuid * write_to) }.

(** dag.rs:130-138, the first [get_testcase_id] *)
Definition id_of_file (p : list string) : res (option nat) :=
  match file_name p with
  | None => RPanic
  | Some n =>
    match rfind "put" n with
    | None => ROk None
    | Some put =>
      match rfind "." n with
      | None => ROk None
      | Some dot => match slice n (put + 3) dot with ROk s => ROk (parse_u32 s) | RErr => RErr | RPanic => RPanic end
      end
    end
  end.
(** dag.rs:176-181, the second one *)
Definition id_of_description (d : string) : res (option nat) :=
  match rfind "testcase " d with
  | None => ROk None
  | Some i =>
    match rfind ", " d with
    | None => ROk None
    | Some e => match slice d (i + 9) e with ROk s => ROk (parse_u32 s) | RErr => RErr | RPanic => RPanic end
    end
  end.

(** dag.rs:141-174: the destination of one file *)
Definition redirect (root : string) (b : batch) (w : file_uuid * (string * bool)) : res (file_uuid * write_to) :=
  let '(f, (dest, exe)) := w in
  match strip_components (components root) (components dest) with
  | None => RErr
  | Some p =>
    if negb (first_is "input" p) && negb (first_is "output" p) then ROk (f, WriteTo dest exe false)
    else match id_of_file p with
         | RPanic => RPanic
         | RErr | ROk None => RErr
         | ROk (Some tc) =>
           match b !! tc with
           | None => RErr
           | Some d => ROk (f, WriteTo (if first_is "input" p then cd_input d else cd_correct d) exe true)
           end
         end
  end.
Fixpoint redirects (root : string) (b : batch) (l : list (file_uuid * (string * bool))) : res (list (file_uuid * write_to)) :=
  match l with
  | [] => ROk []
  | w :: l =>
    match redirect root b w with
    | ROk x => match redirects root b l with ROk r => ROk (x :: r) | RErr => RErr | RPanic => RPanic end
    | RErr => RErr
    | RPanic => RPanic
    end
  end.

(** The descriptions: batch.rs:44-49, communication.rs:128-135 and 183-188; nothing else is tagged "evaluation" *)
Definition description (nm : string -> string) (t : task_type) (r : role) : string :=
  match t, r with
  | TBatch _, REvaluation st tc sol _ _ =>
      "Evaluation of " +:+ nm sol +:+ " on testcase " +:+ pretty tc +:+ ", subtask " +:+ pretty st
  | TCommunication _ _ _, REvaluation st tc sol i n =>
      "Evaluation of " +:+ nm sol +:+ " (process " +:+ pretty (S i) +:+ "/" +:+ pretty n +:+ ") on testcase " +:+ pretty tc +:+
      ", subtask " +:+ pretty st
  | TCommunication _ _ _, RChecker st tc sol =>
      "Manager of " +:+ nm sol +:+ " on testcase " +:+ pretty tc +:+ ", subtask " +:+ pretty st
  | _, _ => ""
  end.

Definition set_priority (p : Z) (e : execution) : execution :=
  Execution (e_uuid e) (e_command e) (e_args e) (e_stdin e) (e_stdout e) (e_stderr e) (e_capture_stdout e)
    (e_capture_stderr e) (e_inputs e) (e_outputs e) (e_stdin_redirect e) (e_stdout_redirect e) (e_stderr_redirect e)
    (e_env e) (e_copy_env e) (e_limits e) (e_config e) (e_tag e) p.

(** dag.rs:184-216: one execution; the file to write, if any, and whether it is counted *)
Definition patch_exec (nm : string -> string) (t : task_type) (roles : list (exec_uuid * role)) (b : batch) (e : execution)
    : res (execution * list (file_uuid * string) * nat) :=
  if decide (e_tag e = Some "evaluation") then
    match e_stdout e with
    | None => ROk (set_priority (gen_priority + 1) e, [], 1)
    | Some f =>
      match id_of_description (match aget (e_uuid e) roles with Some r => description nm t r | None => "" end) with
      | RPanic => RPanic
      | RErr | ROk None => RErr
      | ROk (Some tc) =>
        match b !! tc with
        | None => RErr
        | Some d => ROk (set_priority (gen_priority + 1) e, [(f, cd_output d)], 1)
        end
      end
    end
  else if decide (e_tag e = Some "checking") then ROk (set_priority (gen_priority + 1) e, [], 1)
  else ROk (e, [], 0).
Fixpoint patch_execs (nm : string -> string) (t : task_type) (roles : list (exec_uuid * role)) (b : batch) (l : list execution)
    : res (list execution * list (file_uuid * string) * nat) :=
  match l with
  | [] => ROk ([], [], 0)
  | e :: l =>
    match patch_exec nm t roles b e with
    | ROk (e', f, n) =>
      match patch_execs nm t roles b l with ROk (l', fs, m) => ROk (e' :: l', f ++ fs, n + m) | RErr => RErr | RPanic => RPanic end
    | RErr => RErr
    | RPanic => RPanic
    end
  end.
Fixpoint patch_groups (nm : string -> string) (t : task_type) (roles : list (exec_uuid * role)) (b : batch)
    (l : list (group_uuid * group)) : res (list (group_uuid * group) * list (file_uuid * string) * nat) :=
  match l with
  | [] => ROk ([], [], 0)
  | (k, g) :: l =>
    match patch_execs nm t roles b (g_execs g) with
    | ROk (es, f, n) =>
      match patch_groups nm t roles b l with
      | ROk (l', fs, m) => ROk ((k, Group (g_uuid g) es (g_fifo g)) :: l', f ++ fs, n + m)
      | RErr => RErr
      | RPanic => RPanic
      end
    | RErr => RErr
    | RPanic => RPanic
    end
  end.

(** dag.rs:128-228 [patch_dag] *)
Definition patch_dag (nm : string -> string) (c : build_config) (t : btask) (size : nat) (b : batch) (s : bstate) : res patched :=
  match redirects (bk_path t) b (b_written s) with
  | RErr => RErr
  | RPanic => RPanic
  | ROk ws =>
    match patch_groups nm (bk_type t) (b_roles s) b (b_groups s) with
    | RErr => RErr
    | RPanic => RPanic
    | ROk (gs, fs, processed) =>
      let ws := if cfg_dry_run (bc_dag c) then ws
                else fold_left (fun ws fp => ainsert (fst fp) (WriteTo (snd fp) false true) ws) fs ws in
      if decide (processed = size * 2) then ROk (Patched gs ws) else RErr
    end
  end.
