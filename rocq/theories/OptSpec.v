(** * OptSpec: what the options of task-maker ask for *)
From Coq Require Import Ascii.
From Verif Require Export OptModel.

(** ** The operations of a run, in order *)
(** [tr] is what was done of [plan]: everything, or everything up to the first operation that failed *)
Definition done_all (ok : list oevent -> oevent -> bool) (plan : list oevent) : Prop :=
  forall a e b, plan = a ++ e :: b -> ok a e = true.
Definition stopped_at (ok : list oevent -> oevent -> bool) (plan tr : list oevent) : Prop :=
  exists a e b, tr = a ++ [e] /\ plan = a ++ e :: b /\ ok a e = false /\ forall a' e' b', a = a' ++ e' :: b' -> ok a' e' = true.

(** A number that can be an extra time: not negative and not NaN (infinity included) *)
Definition good_time (t : f64) : Prop := t = S754_infinity false \/ (exists s, t = S754_zero s) \/ exists m e, t = S754_finite false m e.
Definition negative_time (t : f64) : Prop := t = S754_infinity true \/ exists m e, t = S754_finite true m e.
(** The tags of --no-cache=a,b,c *)
Definition known_tag (t : string) : Prop := t ∈ ["compilation"; "generation"; "evaluation"; "checking"; "booklet"].
Definition good_cache (c : option (option string)) : Prop :=
  forall l, c = Some (Some l) -> forall t, t ∈ split_on ","%char l -> known_tag t.
(** What the cache may be used for *)
Definition cache_asked (c : option (option string)) (mode : cache_mode) : Prop :=
  match c with
  | None => mode = CacheEverything
  | Some None => mode = CacheNothing
  | Some (Some l) => exists tags, mode = CacheExcept tags /\ forall t, t ∈ tags <-> t ∈ split_on ","%char l
  end.
(** The configuration asked by the options: what is not given is half a second and 8 MiB *)
Definition asked (x : exec_opt) (rc : run_config) : Prop :=
  rc_keep_sandboxes rc = x_keep_sandboxes x /\ rc_dry_run rc = x_dry_run x /\ cache_asked (x_no_cache x) (rc_cache_mode rc) /\
  (forall t, x_extra_time x = Some t -> rc_extra_time rc = t) /\ (x_extra_time x = None -> rc_extra_time rc = S754_finite false (2 ^ 52) (-53)) /\
  (forall n, x_extra_memory x = Some n -> rc_extra_memory rc = n) /\ (x_extra_memory x = None -> rc_extra_memory rc = 8192%N) /\
  rc_copy_exe rc = x_copy_exe x /\ rc_copy_logs rc = x_copy_logs x /\ rc_priority rc = x_priority x.
Definition eval_asked (o : opt) (c : eval_config) : Prop :=
  ec_filter c = o_filter o /\ ec_solutions c = o_solution o /\ ec_booklet_solutions c = o_booklet_solutions o /\
  ec_no_statement c = o_no_statement o /\ ec_disabled c = o_skip_checks o /\ ec_seed c = o_seed o /\
  ec_dry_run c = x_dry_run (o_exec o).
(** Where the store is *)
Definition storage_at (m : machine) (s : storage_opt) (d : list string) : Prop :=
  t_store_dir s = Some d \/
  t_store_dir s = None /\ (mc_cache_dir m = Some d \/ mc_cache_dir m = None /\ d = mc_temp_dir m ++ ["task-maker"]).
(** The name given to the server *)
Definition named (m : machine) (x : exec_opt) (n : string) : Prop :=
  x_name x = Some n \/ x_name x = None /\ exists h, mc_host m = Some h /\ n = mc_user m +:+ "@" +:+ h.

(** The evaluation takes place: on the server, or here with some workers *)
Inductive executor_of (m : machine) (o : opt) (d : list string) : list oevent -> Prop :=
  | on_server a n : x_evaluate_on (o_exec o) = Some a -> named m (o_exec o) n ->
      executor_of m o d [OConnect a 27182; OWelcome n]
  | here n : x_evaluate_on (o_exec o) = None ->
      (x_num_cores (o_exec o) = Some n \/ x_num_cores (o_exec o) = None /\ n = mc_cores m) ->
      executor_of m o d [OCache (d ++ ["cache"]); OWorkers n (d ++ ["sandboxes"])].
(** With -v the curses interface is replaced *)
Definition ui_asked (o : opt) (u : ui_type) : Prop :=
  if decide (o_ui o = UICurses /\ o_verbose o <> 0%N) then u = UIPrint else u = o_ui o.
Inductive plan_of (m : machine) (o : opt) : list oevent -> Prop :=
  | plan_run c rc d ex u :
      eval_asked o c -> asked (o_exec o) rc -> storage_at m (o_storage o) d -> executor_of m o d ex -> ui_asked o u ->
      plan_of m o
        ([OFind c (o_task_dir o) (o_max_depth o); OBuild rc c] ++
         (if x_copy_dag (o_exec o) then [OMkdir ["bin"]; OWrite ["bin"; "DAG.dot"]] else []) ++
         [OStore (d ++ ["store"]) (t_max_cache (o_storage o) * 2 ^ 20) (t_min_cache (o_storage o) * 2 ^ 20)] ++
         ex ++ [OUi u; ORun]).

(** Options that make sense *)
Record sensible (m : machine) (o : opt) : Prop := {
  sn_exclusive : o_exclusive o = false;
  sn_clean : o_clean o = false;
  sn_cache : good_cache (x_no_cache (o_exec o));
  sn_time : forall t, x_extra_time (o_exec o) = Some t -> good_time t;
  sn_max : (t_max_cache (o_storage o) < 2 ^ 44)%N;
  sn_min : (t_min_cache (o_storage o) < 2 ^ 44)%N;
  sn_name : x_evaluate_on (o_exec o) <> None -> x_name (o_exec o) = None -> mc_host m <> None }.

(** Operations that change the directory of the task *)
Definition changes_task (e : oevent) : Prop := match e with OClean | OMkdir _ | OWrite _ => True | _ => False end.
