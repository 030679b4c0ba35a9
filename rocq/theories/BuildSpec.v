(** * BuildSpec: what the DAG of a task must contain *)
From Verif Require Import BuildModel.

(** ** Which messages are those of a compilation *)
Definition comp_role (r : role) : bool := match r with RCompilation _ => true | _ => false end.

(** ** Files *)
(** [f] is a provided file whose content is that of the path [p] *)
Definition holds (n0 : positive) (w : world) (s : bstate) (f : positive) (p : string) : Prop :=
  (n0 <= f)%positive /\ (f < b_next s)%positive /\ aget f (b_provided s) = w_key w p /\ is_Some (w_key w p).

(** ** Source files *)
Definition exe_written (c : build_config) (src : source) (s : bstate) (f : file_uuid) : Prop :=
  cfg_dry_run (bc_dag c) = false -> bc_copy_exe c || sf_copy_exe src = true ->
  forall p, sf_write_to src = Some p -> aget f (b_written s) = Some (p, true).
(** what is known of a compilation *)
Definition is_compilation (n0 : positive) (w : world) (s : bstate) (src : source) (cs : compile_spec) (e : execution) (exe : file_uuid) : Prop :=
  e_command e = cs_compiler cs /\ e_stdin e = None /\ e_outputs e = [(cs_binary cs, exe)] /\
  e_args e = cs_args cs ++ match sf_grader src with
                           | Some (_, gd) => dp_sandbox gd :: (if cs_grader_only cs then [] else [cs_source_name cs])
                           | None => [cs_source_name cs] end /\
  (forall gf gd, sf_grader src = Some (gf, gd) ->
     aget (dp_sandbox gd) (e_inputs e) = Some (ExecInput gf false) /\ aget gf (b_provided s) = w_key w (dp_local gd) /\ is_Some (w_key w (dp_local gd))) /\
  ((forall gf gd, sf_grader src = Some (gf, gd) -> dp_sandbox gd <> cs_source_name cs) ->
     exists f, aget (cs_source_name cs) (e_inputs e) = Some (ExecInput f false) /\ holds n0 w s f (sf_path src)) /\
  (forall ds1 d ds2, cs_deps cs = ds1 ++ d :: ds2 -> dp_sandbox d ∉ map dp_sandbox ds2 -> dp_sandbox d <> cs_source_name cs ->
     (forall gf gd, sf_grader src = Some (gf, gd) -> dp_sandbox gd <> dp_sandbox d) ->
     exists f, aget (dp_sandbox d) (e_inputs e) = Some (ExecInput f false) /\ holds n0 w s f (dp_local d)).


(** The executions of the DAG that are bound to a message *)
Definition has_role (c : build_config) (s : bstate) (r : role) (e : execution) : Prop :=
  (e_uuid e, r) ∈ b_roles s /\ exists k g, (k, g) ∈ b_groups s /\ set_config (bc_dag c) e ∈ g_execs g.

(** [exe] is what runs a source file: a copy of the file itself or the output of its compilation *)
Definition exe_of (n0 : positive) (w : world) (c : build_config) (s : bstate) (src : source) (exe : file_uuid) : Prop :=
  (exe < b_next s)%positive /\ exe_written c src s exe /\
  match sf_compile src with
  | None => holds n0 w s exe (sf_path src)
  | Some cs => exists e, has_role c s (RCompilation (sf_path src)) e /\ is_compilation n0 w s src cs e exe /\
      e_limits e = set_mounts false true true (allow_multiprocess (add_readable_dirs (cs_dirs cs) default_limits)) /\
      e_env e = fold_left (fun l kv => ainsert (fst kv) (snd kv) l) (cs_env cs) []
  end.

(** The grader is put in the sandbox at run time if the language is not compiled *)
Definition runtime_grader (src : source) : list string :=
  match sf_grader src, sf_compile src with Some (_, gd), None => [dp_sandbox gd] | _, _ => [] end.

(** The sandbox of a source file that is run with arguments [args]; [extra]: the files that were added after it *)
Record boxed (n0 : positive) (w : world) (c : build_config) (s : bstate) (src : source) (args : list string) (extra : list string)
    (i : list (path * exec_input)) : Prop := {
  (* its executable *)
  bx_exe : exists exe, exe_of n0 w c s src exe /\
    (sf_exe_name src ∉ map dp_sandbox (sf_runtime_deps src) ++ runtime_grader src ++ extra ->
     aget (sf_exe_name src) i = Some (ExecInput exe true));
  (* its dependencies *)
  bx_deps : forall ds1 d ds2, sf_runtime_deps src = ds1 ++ d :: ds2 ->
    dp_sandbox d ∉ map dp_sandbox ds2 ++ runtime_grader src ++ extra ->
    exists f, aget (dp_sandbox d) i = Some (ExecInput f false) /\ holds n0 w s f (dp_local d);
  (* the grader *)
  bx_grader : forall gf gd, sf_grader src = Some (gf, gd) -> sf_compile src = None -> dp_sandbox gd ∉ extra ->
    aget (dp_sandbox gd) i = Some (ExecInput gf false) /\
    aget gf (b_provided s) = w_key w (dp_local gd) /\ is_Some (w_key w (dp_local gd));
  (* the files that are named by its arguments *)
  bx_args : forall a, a ∈ args -> w_exists w (path_join (sf_base src) a) = true ->
    a ∉ sf_exe_name src :: map dp_sandbox (sf_runtime_deps src) ++ runtime_grader src ++ extra ->
    exists f, aget a i = Some (ExecInput f false) /\ holds n0 w s f (path_join (sf_base src) a);
  (* nothing else *)
  bx_only : forall p f x, aget p i = Some (ExecInput f x) ->
    p ∈ sf_exe_name src :: map dp_sandbox (sf_runtime_deps src) ++ runtime_grader src ++ extra \/
    (p ∈ args /\ w_exists w (path_join (sf_base src) p) = true)
}.

(** A source file run with arguments [args], in a sandbox with the files [i] *)
Definition exec_of (u : exec_uuid) (src : source) (args : list string) (i : list (path * exec_input)) : execution :=
  Execution u (sf_command src) (sf_args src args) None None None None None i [] None None None [] ["LANG"; "LC_ALL"]
    (sf_limits src default_limits) (DagConfig false CacheEverything 0 0 0) None 0.

(** ** The executions of a testcase
    [fi]: its input file; [val]: what the validator of the owner printed; [fo]: the official output *)
Section testcase.
  Context (n0 : positive) (w : world) (c : build_config) (t : btask) (s : bstate).
  Definition runs (src : source) (args extra : list string) (e : execution) : Prop :=
    e_command e = sf_command src /\ e_args e = sf_args src args /\ e_copy_env e = ["LANG"; "LC_ALL"] /\
    boxed n0 w c s src args extra (e_inputs e).
  Definition copied_to (f : file_uuid) (p : string) : Prop :=
    cfg_dry_run (bc_dag c) = false -> bk_path t <> "" -> aget f (b_written s) = Some (p, false).

  Definition input_ok (g : input_generator) (st tc : nat) (fi : file_uuid) : Prop :=
    copied_to fi (bk_path t +:+ "/input/input" +:+ pretty tc +:+ ".txt") /\
    match g with
    | IStatic p => holds n0 w s fi p
    | ICustom src args => exists e, has_role c s (RGeneration st tc) e /\ runs src args [] e /\
        e_stdin e = None /\ e_stdin_redirect e = None /\ e_stdout e = Some fi /\ e_stdout_redirect e = None /\ e_env e = [] /\
        e_limits e = allow_multiprocess (sf_limits src default_limits)
    end.

  Definition validation_ok (v : input_validator) (st : nat) (name : option string) (tc : nat) (fi : file_uuid) (val : option file_uuid) : Prop :=
    match v with
    | VAssume => val = None
    | VCustom src args => exists e fv, val = Some fv /\ has_role c s (RValidation st tc) e /\ runs src args ["tm_validation_file"] e /\
        e_stdin e = None /\ e_stdin_redirect e = None /\ e_stdout e = Some fv /\ e_stdout_redirect e = None /\
        aget "tm_validation_file" (e_inputs e) = Some (ExecInput fi false) /\
        aget "TM_SUBTASK" (e_env e) = Some (pretty st) /\ aget "TM_TESTCASE" (e_env e) = Some (pretty tc) /\
        aget "TM_SUBTASK_NAME" (e_env e) = name /\
        e_limits e = allow_multiprocess (sf_limits src default_limits)
    end.

  (** A program that reads the input of the task and writes its output; it starts after the validation *)
  Definition io_names (val : option file_uuid) : list string :=
    match val with Some _ => ["wait_for_validation"] | None => [] end ++ match bk_infile t with Some p => [p] | None => [] end.
  Definition io_ok (fi : file_uuid) (val : option file_uuid) (e : execution) (fo : file_uuid) : Prop :=
    match bk_infile t with
    | None => e_stdin e = Some fi
    | Some p => e_stdin e = None /\ ((p = "wait_for_validation" -> val = None) -> aget p (e_inputs e) = Some (ExecInput fi false))
    end /\
    match val with Some fv => aget "wait_for_validation" (e_inputs e) = Some (ExecInput fv false) | None => True end /\
    match bk_outfile t with None => e_stdout e = Some fo | Some p => e_outputs e = [(p, fo)] end.

  Definition output_ok (g : output_generator) (st tc : nat) (fi : file_uuid) (val : option file_uuid) (fo : file_uuid) : Prop :=
    copied_to fo (bk_path t +:+ "/output/output" +:+ pretty tc +:+ ".txt") /\
    match g with
    | ONotAvailable => aget fo (b_provided s) = Some (bc_empty c) /\ (n0 <= fo)%positive
    | OStatic p => holds n0 w s fo p
    | OCustom src args => exists e, has_role c s (RSolution st tc) e /\ runs src args (io_names val) e /\
        e_stdin_redirect e = None /\ e_stdout_redirect e = None /\ e_env e = [] /\
        io_ok fi val e fo /\ e_limits e = sf_limits src default_limits
    end.

  Definition checker_ok (ck : checker) (st tc : nat) (sol : string) (fi fc ft : file_uuid) : Prop :=
    exists e, has_role c s (RChecker st tc sol) e /\ e_stdin e = None /\ e_stdin_redirect e = None /\ e_stdout_redirect e = None /\
    match ck with
    | CWhiteDiff => e_command e = System "diff" /\
        e_args e = ["--brief"; "--speed-large-files"; "--ignore-blank-lines"; "--ignore-space-change"; "correct"; "test"] /\
        e_inputs e = [("correct", ExecInput fc false); ("test", ExecInput ft false)] /\
        e_limits e = default_limits
    | CCustom src => runs src ["input"; "correct_output"; "test_output"] ["test_output"; "correct_output"; "input"] e /\
        aget "input" (e_inputs e) = Some (ExecInput fi false) /\
        aget "correct_output" (e_inputs e) = Some (ExecInput fc false) /\
        aget "test_output" (e_inputs e) = Some (ExecInput ft false) /\
        e_capture_stdout e = Some 128%N /\ is_Some (e_capture_stderr e) /\
        e_limits e = allow_multiprocess (sf_limits src default_limits)
    end.

  (** The limits of the task: times in half milliseconds (the task: in milliseconds), memory in KiB (the task: in MiB) *)
  Definition limited (time : option Z) (l l' : limits) : Prop :=
    l_cpu_time l' = match time with Some tl => Some (2 * tl)%Z | None => l_cpu_time l end /\
    l_wall_time l' = match time with Some tl => Some (2 * tl + tl + 2 * 1000)%Z | None => l_wall_time l end /\
    l_memory l' = match bk_memory t with Some m => Some ((m * 1024) mod 2 ^ 64)%Z | None => l_memory l end /\
    set_memory None (set_times None None l') = set_memory None (set_times None None l).

  Definition batch_ok (ck : checker) (st tc : nat) (sol : source) (fi : file_uuid) (val : option file_uuid) (fc : file_uuid) : Prop :=
    exists e fo, has_role c s (REvaluation st tc (sf_path sol) 0 1) e /\ runs sol [] (io_names val) e /\
      e_stdin_redirect e = None /\ e_stdout_redirect e = None /\ e_env e = [] /\
      io_ok fi val e fo /\ limited (bk_time t) (sf_limits sol default_limits) (e_limits e) /\
      checker_ok ck st tc (sf_path sol) fi fc fo.

  (** Communication: [fifos]: for each process the pipe it reads and the pipe it writes *)
  Definition process_runs (io : user_io) (sol : source) (n i : nat) (m2s s2m : fifo_uuid) (e : execution) : Prop :=
    (let num := if decide (n <= 1) then [] else [pretty i] in
     match io with
     | StdIo => runs sol num [] e /\ e_stdin_redirect e = Some (fifo_path m2s) /\ e_stdout_redirect e = Some (fifo_path s2m)
     | FifoIo => runs sol ([fifo_path m2s; fifo_path s2m] ++ num) [] e /\ e_stdin_redirect e = None /\ e_stdout_redirect e = None
     end) /\
    e_stdin e = None /\ e_stdout e = None /\ e_outputs e = [] /\ e_env e = [] /\
    limited (bk_time t) (sf_limits sol default_limits) (e_limits e).
  Definition process_ok (io : user_io) (st tc : nat) (sol : source) (n i : nat) (m2s s2m : fifo_uuid) (e : execution) : Prop :=
    has_role c s (REvaluation st tc (sf_path sol) i n) e /\ process_runs io sol n i m2s s2m e.
  Definition manager_ok (manager : source) (st tc : nat) (sol : string) (fi : file_uuid) (val : option file_uuid)
      (fifos : list (fifo_uuid * fifo_uuid)) (e : execution) : Prop :=
    has_role c s (RChecker st tc sol) e /\
    runs manager (fifos ≫= (fun p => [fifo_path (snd p); fifo_path (fst p)])) (io_names val) e /\
    e_stdin_redirect e = None /\ e_stdout_redirect e = None /\ e_env e = [] /\
    (exists fo, io_ok fi val e fo) /\ e_capture_stdout e = Some 128%N /\ e_capture_stderr e = Some 1024%N /\
    limited (option_map (fun tl => Z.of_nat (length fifos) * (tl + 1000))%Z (bk_time t)) (sf_limits manager default_limits) (e_limits e).
  Definition communication_ok (manager : source) (n : nat) (io : user_io) (st tc : nat) (sol : source) (fi : file_uuid)
      (val : option file_uuid) : Prop :=
    exists k fifos es m, length fifos = n /\
      (k, Group k (map (set_config (bc_dag c)) (es ++ [m])) (fifos ≫= (fun p => [fst p; snd p]))) ∈ b_groups s /\
      NoDup (fifos ≫= (fun p => [fst p; snd p])) /\ length es = n /\
      (forall i p e, fifos !! i = Some p -> es !! i = Some e -> process_ok io st tc sol n i (fst p) (snd p) e) /\
      manager_ok manager st tc (sf_path sol) fi val fifos m.

  Definition evaluation_ok (st tc : nat) (fi : file_uuid) (val : option file_uuid) (fc : file_uuid) (sol : source) : Prop :=
    match bk_type t with
    | TBatch ck => batch_ok ck st tc sol fi val fc
    | TCommunication manager n io => communication_ok manager n io st tc sol fi val
    | TNone => True
    end.
  (** A testcase of the subtask that owns it *)
  Definition testcase_ok (sols : list source) (sub : bsubtask) (tc : nat) (fi : file_uuid) : Prop :=
    exists b val fc, bk_testcases t !! tc = Some b /\
      input_ok (bt_input b) (bs_id sub) tc fi /\
      validation_ok (bs_validator sub) (bs_id sub) (bs_name sub) tc fi val /\
      output_ok (bt_output b) (bs_id sub) tc fi val fc /\
      forall sol, sol ∈ sols -> evaluation_ok (bs_id sub) tc fi val fc sol.
End testcase.

(** ** The messages the executions are bound to *)
Definition input_roles (g : input_generator) (st tc : nat) : list role :=
  match g with IStatic _ => [] | ICustom _ _ => [RGeneration st tc] end.
Definition validation_roles (v : input_validator) (st tc : nat) : list role :=
  match v with VAssume => [] | VCustom _ _ => [RValidation st tc] end.
Definition output_roles (g : output_generator) (st tc : nat) : list role :=
  match g with OCustom _ _ => [RSolution st tc] | _ => [] end.
Definition evaluation_roles (ty : task_type) (st tc : nat) (sol : source) : list role :=
  match ty with
  | TBatch _ => [REvaluation st tc (sf_path sol) 0 1; RChecker st tc (sf_path sol)]
  | TCommunication _ n _ => map (fun i => REvaluation st tc (sf_path sol) i n) (seq 0 n) ++ [RChecker st tc (sf_path sol)]
  | TNone => []
  end.
Definition testcase_roles (t : btask) (sols : list source) (sub : bsubtask) (tc : nat) : list role :=
  match bk_testcases t !! tc with
  | None => []
  | Some b => input_roles (bt_input b) (bs_id sub) tc ++ validation_roles (bs_validator sub) (bs_id sub) tc ++
      output_roles (bt_output b) (bs_id sub) tc ++ (sols ≫= evaluation_roles (bk_type t) (bs_id sub) tc)
  end.
Definition task_roles (t : btask) (sols : list source) : list role :=
  (bk_subtasks t ≫= fun sub => bs_owned sub ≫= testcase_roles t sols sub) ++
  (bk_subtasks t ≫= fun sub => filter (fun tc => tc ∉ bs_owned sub) (bs_testcases sub) ≫= validation_roles (bs_validator sub) (bs_id sub)).

(** ** The source files of a task *)
Definition input_sources (g : input_generator) : list source := match g with IStatic _ => [] | ICustom s _ => [s] end.
Definition validator_sources (v : input_validator) : list source := match v with VAssume => [] | VCustom s _ => [s] end.
Definition output_sources (g : output_generator) : list source := match g with OCustom s _ => [s] | _ => [] end.
Definition type_sources (ty : task_type) : list source :=
  match ty with TBatch (CCustom s) => [s] | TCommunication m _ _ => [m] | _ => [] end.
(** the source files of the task, [sols] being the solutions *)
Definition task_sources (t : btask) (sols : list source) : list source :=
  type_sources (bk_type t) ++ sols ++ (bk_subtasks t ≫= fun sub => validator_sources (bs_validator sub)) ++
  ((map_to_list (bk_testcases t)).*2 ≫= fun b => input_sources (bt_input b) ++ output_sources (bt_output b)).
(** those that are run, or prepared to be run *)
Definition used_sources (t : btask) (sols : list source) : list source :=
  type_sources (bk_type t) ++
  (bk_subtasks t ≫= fun sub => bs_owned sub ≫= fun tc =>
     match bk_testcases t !! tc with
     | None => []
     | Some b => input_sources (bt_input b) ++ validator_sources (bs_validator sub) ++ output_sources (bt_output b) ++
                 match bk_type t with TNone => [] | _ => sols end
     end) ++
  (bk_subtasks t ≫= fun sub => bs_testcases sub ≫= fun tc => if decide (tc ∈ bs_owned sub) then [] else validator_sources (bs_validator sub)).

(** ** What is asked of a task *)
Record task_ok (n0 : positive) (t : btask) (sols : list source) : Prop := {
  (* a handle belongs to one source file *)
  tk_handles : forall s1 s2, s1 ∈ task_sources t sols -> s2 ∈ task_sources t sols -> sf_id s1 = sf_id s2 -> s1 = s2;
  (* the identifiers of the graders were made before, one for each grader *)
  tk_graders : forall s gf gd, s ∈ task_sources t sols -> sf_grader s = Some (gf, gd) -> (gf < n0)%positive;
  tk_grader : forall s1 s2 gf gd1 gd2, s1 ∈ task_sources t sols -> s2 ∈ task_sources t sols ->
      sf_grader s1 = Some (gf, gd1) -> sf_grader s2 = Some (gf, gd2) -> dp_local gd1 = dp_local gd2;
  (* the testcases of the subtasks exist and have an owner *)
  tk_owned : forall sub tc, sub ∈ bk_subtasks t -> tc ∈ bs_owned sub -> is_Some (bk_testcases t !! tc);
  tk_used : forall sub tc, sub ∈ bk_subtasks t -> tc ∈ bs_testcases sub -> exists sub', sub' ∈ bk_subtasks t /\ tc ∈ bs_owned sub'
}.

(** The files a task refers to are on the disk *)
Definition source_there (w : world) (src : source) : Prop :=
  is_Some (w_key w (sf_path src)) /\ (forall d, d ∈ sf_runtime_deps src -> is_Some (w_key w (dp_local d))) /\
  (forall cs d, sf_compile src = Some cs -> d ∈ cs_deps cs -> is_Some (w_key w (dp_local d))) /\
  (forall gf gd, sf_grader src = Some (gf, gd) -> is_Some (w_key w (dp_local gd))).
Record files_there (w : world) (t : btask) (sols : list source) : Prop := {
  ft_exists : forall p, w_exists w p = true -> is_Some (w_key w p);
  ft_sources : forall src, src ∈ used_sources t sols -> source_there w src;
  ft_inputs : forall tc b p, bk_testcases t !! tc = Some b -> bt_input b = IStatic p -> w_exists w p = true;
  ft_outputs : forall tc b p, bk_testcases t !! tc = Some b -> bt_output b = OStatic p -> w_exists w p = true
}.
