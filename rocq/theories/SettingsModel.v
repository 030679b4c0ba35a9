(** * SettingsModel: task.yaml and task.yaml.orig (task-maker-format/src/ioi/format/italian_yaml/mod.rs:321-470, 490-550,
      628-706, 839-885), the settings of a task

    Definitions only.  A YAML document is what the parser of serde_yaml gives: a mapping from keys to nodes, where a scalar
    has its text and is plain or quoted.  The structs are read as the code derived by serde does: a field is looked for by its
    name and its aliases, other keys are ignored, a field that is there twice is an error.  Simplifications: keys are strings;
    tags, anchors and merge keys are not modelled; the syntax of the numbers, and which strings are written without quotes, are
    parameters. *)
From Coq Require Import NArith.
From stdpp Require Export base list gmap strings pretty.
From Verif Require Export FloatModel.

Inductive node := YScalar (t : string) (plain : bool) | YSeq (l : list node) | YMap (l : list (string * node)).
Notation doc := (list (string * node)).
(** What is not in /repo: the numbers and the quotes of serde_yaml *)
Record yaml_syntax := YamlSyntax {
  parse_uint : string -> option N; parse_float : string -> option f64; show_float : f64 -> string;
  plain_ok : string -> bool }.

(** ** Reading, as derived by serde *)
(** The value of a field that has these names; [None]: it is there twice *)
Definition field (names : list string) (d : doc) : option (option node) :=
  match filter (fun x => x.1 ∈ names) d with [] => Some None | [x] => Some (Some x.2) | _ => None end.
(** The texts that mean that there is nothing *)
Definition null_text (t : string) : bool := bool_decide (t ∈ [""; "~"; "null"; "Null"; "NULL"]).
Definition is_null (n : node) : bool := match n with YScalar t true => null_text t | _ => false end.
(** A field without a default *)
Definition required {A} (names : list string) (read : node -> option A) (d : doc) : option A := v ← field names d; n ← v; read n.
(** A field with [serde(default)] *)
Definition defaulted {A} (names : list string) (a : A) (read : node -> option A) (d : doc) : option A :=
  v ← field names d; match v with None => Some a | Some n => read n end.
(** A field that is an [Option] *)
Definition read_option {A} (read : node -> option A) (n : node) : option (option A) := if is_null n then Some None else Some <$> read n.
Definition optional {A} (names : list string) (read : node -> option A) : doc -> option (option A) := defaulted names None (read_option read).

Definition read_string (n : node) : option string := match n with YScalar t _ => Some t | _ => None end.
Definition read_bool (n : node) : option bool :=
  match n with
  | YScalar t true => if decide (t ∈ ["true"; "True"; "TRUE"]) then Some true else if decide (t ∈ ["false"; "False"; "FALSE"]) then Some false else None
  | _ => None
  end.
(** dag/mod.rs:26-40 [TestcaseScoreAggregator] *)
Inductive score_kind := KMin | KSum.
Definition read_score_type (n : node) : option score_kind :=
  match n with
  | YScalar t _ => if decide (t ∈ ["min"; "GroupMin"]) then Some KMin else if decide (t ∈ ["sum"; "Sum"]) then Some KSum else None
  | _ => None
  end.
Section syntax.
  Context (y : yaml_syntax).
  (** An unsigned number below [limit] *)
  Definition read_uint (limit : N) (n : node) : option N :=
    match n with YScalar t true => x ← parse_uint y t; if decide (x < limit)%N then Some x else None | _ => None end.
  Definition read_float (n : node) : option f64 := match n with YScalar t true => parse_float y t | _ => None end.
  Definition read_parameter (n : node) : option (f64 * string) :=
    match n with YSeq [a; b] => x ← read_float a; t ← read_string b; Some (x, t) | _ => None end.
  Definition read_parameters (n : node) : option (list (f64 * string)) := match n with YSeq l => mapM read_parameter l | _ => None end.
  Definition u64 : N := (2 ^ 64)%N.
  Definition u8 : N := 256%N.

  (** mod.rs:337-400 [TaskYAML] *)
  Record settings := Settings {
    s_name : string; s_title : string; s_score_type : option score_kind; s_parameters : option (list (f64 * string));
    s_precision : N; s_language : option string; s_time : option f64; s_memory : option N; s_output_only : bool;
    s_infile : string; s_outfile : string; s_difficulty : option N; s_syllabus : option N; s_processes : option N;
    s_user_io : option string; s_score_mode : option string; s_token_mode : option string; s_public : option string; s_feedback : option string }.
  (** serde_yaml::from_reader of a [TaskYAML] *)
  Definition read_yaml (d : doc) : option settings :=
    name ← required ["name"; "nome_breve"] read_string d;
    title ← required ["title"; "nome"] read_string d;
    score_type ← optional ["score_type"] read_score_type d;
    parameters ← optional ["score_type_parameters"] read_parameters d;
    precision ← defaulted ["score_precision"] 0%N (read_uint u64) d;
    language ← optional ["primary_language"] read_string d;
    time ← optional ["time_limit"; "timeout"] read_float d;
    memory ← optional ["memory_limit"; "memlimit"] (read_uint u64) d;
    output_only ← defaulted ["output_only"] false read_bool d;
    infile ← defaulted ["infile"] "input.txt" read_string d;
    outfile ← defaulted ["outfile"] "output.txt" read_string d;
    difficulty ← optional ["difficulty"] (read_uint u8) d;
    syllabus ← optional ["syllabuslevel"] (read_uint u8) d;
    processes ← optional ["num_processes"] (read_uint u8) d;
    user_io ← optional ["user_io"] read_string d;
    score_mode ← optional ["score_mode"] read_string d;
    token_mode ← optional ["token_mode"] read_string d;
    public ← optional ["public_testcases"] read_string d;
    feedback ← optional ["feedback_level"] read_string d;
    Some (Settings name title score_type parameters precision language time memory output_only infile outfile difficulty syllabus processes
            user_io score_mode token_mode public feedback).
  (** serde_yaml::from_reader of a [TaskYAMLOrig] (mod.rs:402-447), then [into_task_yaml] (mod.rs:449-473); [dir]: the name of
      the directory *)
  Definition read_orig (dir : string) (d : doc) : option settings :=
    name ← defaulted ["name"] "" read_string d;
    title ← required ["title"] read_string d;
    score_type ← optional ["score_type"] read_score_type d;
    precision ← defaulted ["score_precision"] 0%N (read_uint u64) d;
    language ← optional ["primary_language"] read_string d;
    time ← required ["time_limit"] read_float d;
    memory ← required ["memory_limit"] (read_uint u64) d;
    output_only ← defaulted ["output_only"] false read_bool d;
    infile ← defaulted ["infile"] "" read_string d;
    outfile ← defaulted ["outfile"] "" read_string d;
    difficulty ← optional ["difficulty"] (read_uint u8) d;
    syllabus ← optional ["syllabuslevel"] (read_uint u8) d;
    processes ← optional ["num_processes"] (read_uint u8) d;
    user_io ← optional ["user_io"] read_string d;
    Some (Settings dir title score_type None precision (Some (default "en" language)) (Some time) (Some memory) output_only infile outfile
            difficulty syllabus processes user_io (Some "max_subtask") (Some "disabled") (Some "all") (Some "full")).

  (** ** Writing: the serializer derived for [TaskYAML] *)
  Definition write_string (t : string) : node := YScalar t (plain_ok y t).
  Definition write_uint (n : N) : node := YScalar (pretty n) true.
  Definition write_float (x : f64) : node := YScalar (show_float y x) true.
  Definition write_bool (b : bool) : node := YScalar (if b then "true" else "false") true.
  Definition write_option {A} (write : A -> node) (o : option A) : node := match o with Some a => write a | None => YScalar "null" true end.
  (** mod.rs:322-335 [cms_serialize_score_type] *)
  Definition write_score_type (k : score_kind) : node := write_string (match k with KSum => "Sum" | KMin => "GroupMin" end).
  Definition write_parameters (l : list (f64 * string)) : node := YSeq (map (fun p => YSeq [write_float p.1; write_string p.2]) l).
  Definition write_yaml (s : settings) : doc :=
    [("name", write_string (s_name s)); ("title", write_string (s_title s)); ("score_type", write_option write_score_type (s_score_type s))] ++
    (match s_parameters s with Some l => [("score_type_parameters", write_parameters l)] | None => [] end) ++
    [("score_precision", write_uint (s_precision s)); ("primary_language", write_option write_string (s_language s));
     ("time_limit", write_option write_float (s_time s)); ("memory_limit", write_option write_uint (s_memory s));
     ("output_only", write_bool (s_output_only s)); ("infile", write_string (s_infile s)); ("outfile", write_string (s_outfile s));
     ("difficulty", write_option write_uint (s_difficulty s)); ("syllabuslevel", write_option write_uint (s_syllabus s));
     ("num_processes", write_option write_uint (s_processes s)); ("user_io", write_option write_string (s_user_io s));
     ("score_mode", write_option write_string (s_score_mode s)); ("token_mode", write_option write_string (s_token_mode s));
     ("public_testcases", write_option write_string (s_public s)); ("feedback_level", write_option write_string (s_feedback s))].

  (** ** The task *)
  (** mod.rs:645-651 and 652: the testcases of a subtask, [{tc_num:03}] joined with bars *)
  Definition code (tc : nat) : string := String.append (String.concat "" (replicate (3 - String.length (pretty tc)) "0")) (pretty tc).
  Definition codes (l : list nat) : string := String.concat "|" (map code l).
  (** What the rest of [parse_task] found: the subtasks sorted by id (maximum score, testcases), whether one has dependencies,
      whether there is a manager *)
  Record found := Found { fd_subtasks : list (f64 * list nat); fd_dependencies : bool; fd_manager : bool }.
  Definition parameters_of (f : found) : list (f64 * string) := map (fun s => (s.1, codes s.2)) (fd_subtasks f).
  (** mod.rs:628-633 *)
  Definition aggregator_of (o : option score_kind) (f : found) : score_kind :=
    match o with Some k => k | None => if decide (length (fd_subtasks f) = 1) then KSum else KMin end.
  Inductive io := IoStd | IoFifo.
  Inductive kind := KindBatch | KindCommunication (processes : N) (user : io).
  (** mod.rs:866-880 *)
  Definition kind_of (s : settings) (f : found) : option kind :=
    if fd_manager f then
      user ← (match s_user_io s with
              | None => Some IoFifo
              | Some t => if decide (t = "std_io") then Some IoStd else if decide (t = "fifo_io") then Some IoFifo else None
              end);
      Some (KindCommunication (default 1%N (s_processes s)) user)
    else Some KindBatch.
  (** mod.rs:528-535 [map_file] *)
  Definition map_file (t : string) : option string := if decide (t = "") then None else Some t.
  (** The settings of the [IOITask] *)
  Record task_settings := TaskSettings {
    t_name : string; t_title : string; t_time : option f64; t_memory : option N; t_infile : option string; t_outfile : option string;
    t_aggregator : score_kind; t_precision : N; t_difficulty : option N; t_syllabus : option N; t_kind : kind }.
  Definition task_of (s : settings) (k : kind) (f : found) : task_settings :=
    TaskSettings (s_name s) (s_title s) (s_time s) (s_memory s) (map_file (s_infile s)) (map_file (s_outfile s))
      (aggregator_of (s_score_type s) f) (s_precision s) (s_difficulty s) (s_syllabus s) k.
  (** mod.rs:628-633, 639-653: what is written *)
  Definition finish (s : settings) (f : found) : settings :=
    Settings (s_name s) (s_title s) (Some (aggregator_of (s_score_type s) f)) (Some (parameters_of f)) (s_precision s) (s_language s) (s_time s)
      (s_memory s) (s_output_only s) (s_infile s) (s_outfile s) (s_difficulty s) (s_syllabus s) (s_processes s) (s_user_io s)
      (s_score_mode s) (s_token_mode s) (s_public s) (s_feedback s).
  (** An error, a panic, or the task *)
  Inductive loaded := LErr | LPanic | LTask (t : task_settings).
  (** The two files of the directory ([None]: there is no such file) *)
  Record yaml_files := YamlFiles { yf_orig : option doc; yf_yaml : option doc }.
  (** mod.rs:490-550 and 628-706 [parse_task]; [dir]: [task_dir.file_name()]; [writable]: task.yaml may be written and it is not
      a dry run *)
  Definition load (dir : option string) (writable : bool) (fs : yaml_files) (f : found) : yaml_files * loaded :=
    match yf_orig fs with
    | Some d =>
      match dir with
      | None => (fs, if read_orig "" d then LPanic else LErr)
      | Some dir =>
        match read_orig dir d with
        | None => (fs, LErr)
        | Some s =>
          match kind_of s f with
          | None => (fs, LErr)
          | Some k => (if writable then YamlFiles (Some d) (Some (write_yaml (finish s f))) else fs, LTask (task_of s k f))
          end
        end
      end
    | None =>
      match yf_yaml fs with
      | None => (fs, LErr)
      | Some d =>
        match read_yaml d with
        | None => (fs, LErr)
        | Some s =>
          match kind_of s f with
          | None => (fs, LErr)
          | Some k => (fs, if fd_dependencies f then LErr else LTask (task_of s k f))
          end
        end
      end
    end.
End syntax.
