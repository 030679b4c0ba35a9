(** * CacheSpec: vocabulary of the statements about the cache (C16-C21) *)
From Verif Require Export CacheModel.

(** ** Verdicts (C21) *)
Definition over (lim : option Z) (used : Z) : Prop := exists l, lim = Some l /\ (l < used)%Z.
Definition verdict (l : limits) (code : Z) (sig : option (Z * string)) (r : resources) (s : status) : Prop :=
  let cpu := over (l_cpu_time l) (r_cpu_time r) in
  let sys := over (l_sys_time l) (r_sys_time r) in
  let wall := over (l_wall_time l) (r_wall_time r) in
  let mem := over (l_memory l) (r_memory r) in
  match s with
  | TimeLimitExceeded => cpu
  | SysTimeLimitExceeded => ~ cpu /\ sys
  | WallTimeLimitExceeded => ~ cpu /\ ~ sys /\ wall
  | MemoryLimitExceeded => ~ cpu /\ ~ sys /\ ~ wall /\ mem
  | Signal n name => ~ cpu /\ ~ sys /\ ~ wall /\ ~ mem /\ sig = Some (n, name)
  | ReturnCode c => ~ cpu /\ ~ sys /\ ~ wall /\ ~ mem /\ sig = None /\ code = c /\ c <> 0%Z
  | Success => ~ cpu /\ ~ sys /\ ~ wall /\ ~ mem /\ sig = None /\ code = 0%Z
  | InternalError _ => False
  end.

(** A result computed by a worker for [e] without internal errors (worker.rs:556-602). *)
Definition worker_made (e : execution) (r : exec_result) : Prop :=
  exists code sig, verdict (e_limits e) code sig (res_resources r) (res_status r).
Definition made_by_worker (g : group) (results : list exec_result) : Prop := Forall2 worker_made (g_execs g) results.

(** ** Histories *)
(** The caches obtained from an empty one by a sequence of insertions, the last one first. *)
Notation insertion := (group * gmap file_uuid store_key * list exec_result)%type.
Inductive built (ok : insertion -> Prop) : list insertion -> cache -> Prop :=
  | built_empty : built ok [] []
  | built_insert h c g keys results c' : built ok h c -> ok (g, keys, results) ->
      cache_insert g keys results c = ROk c' -> built ok ((g, keys, results) :: h) c'.
Definition all_results (x : insertion) : Prop := length x.2 = length (g_execs x.1.1).
(** Every execution of the group has the given extra time and memory. *)
Definition extras (t m : Z) (g : group) : Prop :=
  forall e, e ∈ g_execs g -> cfg_extra_time (e_config e) = t /\ cfg_extra_memory (e_config e) = m.

(** ** Limits (C17) *)
(** [a] is at most [b], [None] being infinity. *)
Definition lim_le (a b : option Z) : Prop :=
  match b with None => True | Some y => exists x, a = Some x /\ (x <= y)%Z end.
Definition shift (d : Z) (a : option Z) : option Z := (fun x => (x + d)%Z) <$> a.
Definition numbers_le (l r : limits) (dt dm : Z) : Prop :=
  lim_le (shift dt (l_cpu_time l)) (l_cpu_time r) /\ lim_le (shift dt (l_sys_time l)) (l_sys_time r) /\
  lim_le (shift dt (l_wall_time l)) (l_wall_time r) /\ lim_le (shift dm (l_memory l)) (l_memory r) /\
  lim_le (l_nofile l) (l_nofile r) /\ lim_le (l_fsize l) (l_fsize r) /\
  lim_le (l_memlock l) (l_memlock r) /\ lim_le (l_stack l) (l_stack r).
Definition flags_le (l r : limits) : Prop :=
  (l_allow_multiprocess l = true -> l_allow_multiprocess r = true) /\
  (l_read_only r = true -> l_read_only l = true) /\
  (l_mount_tmpfs l = true -> l_mount_tmpfs r = true).
Definition proc_le (l r : limits) : Prop := l_mount_proc l = true -> l_mount_proc r = true.
Definition dirs_le (l r : limits) : Prop := forall d, d ∈ l_extra_readable_dirs l -> d ∈ l_extra_readable_dirs r.
(** [l] with [lt] and [lm] of extra time and memory is not less restrictive than [r] with [rt] and [rm] in any limit. *)
Definition restricts (l : limits) (lt lm : Z) (r : limits) (rt rm : Z) : Prop :=
  numbers_le l r (lt - rt) (lm - rm) /\ flags_le l r /\ proc_le l r /\ dirs_le l r.
(** No overflow of u64. *)
Definition memory_fits (l : limits) (extra : Z) : Prop :=
  (0 <= extra)%Z /\ match l_memory l with Some x => (0 <= x)%Z /\ (x + extra < U64)%Z | None => (extra < U64)%Z end.

(** ** Keys (C18) *)
(** The argument [a] of an execution of [g1] plays the same role as [b] in [g2]. *)
Definition same_arg (g1 g2 : group) (a b : string) : Prop :=
  (exists i u v, g_fifo g1 !! i = Some u /\ g_fifo g2 !! i = Some v /\ a = fifo_path u /\ b = fifo_path v) \/
  (a = b /\ (forall u, u ∈ g_fifo g1 -> a <> fifo_path u) /\ (forall u, u ∈ g_fifo g2 -> b <> fifo_path u)).
(** The file at path [p] has content [k] and executable bit [b]. *)
Definition sees (keys : gmap file_uuid store_key) (e : execution) (p : path) (k : store_key) (b : bool) : Prop :=
  exists i, (p, i) ∈ e_inputs e /\ keys !! in_file i = Some k /\ in_executable i = b.
Definition stdin_key (keys : gmap file_uuid store_key) (e : execution) : option store_key := f ← e_stdin e; keys !! f.
Definition same_exec (g1 : group) (keys1 : gmap file_uuid store_key) (g2 : group) (keys2 : gmap file_uuid store_key)
    (e1 e2 : execution) : Prop :=
  e_command e1 = e_command e2 /\ Forall2 (same_arg g1 g2) (e_args e1) (e_args e2) /\
  stdin_key keys1 e1 = stdin_key keys2 e2 /\
  (forall p k b, sees keys1 e1 p k b <-> sees keys2 e2 p k b) /\
  (forall x v, (x, v) ∈ e_env e1 <-> (x, v) ∈ e_env e2).
(** The maps of the executions are maps, fifos are distinct. *)
Definition group_maps_ok (g : group) : Prop :=
  NoDup (g_fifo g) /\ forall e, e ∈ g_execs g -> NoDup (e_inputs e).*1 /\ NoDup (e_env e).*1.
(** No argument looks like the name the key gives to a fifo. *)
Definition no_fifo_names (g : group) : Prop := forall e a i, e ∈ g_execs g -> a ∈ e_args e -> a <> fifo_name i.

(** ** Insert and get (C19, C20) *)
(** [f] is for [e] what [f0] is for [e0]: the standard output, the standard error or the output with a given path. *)
Definition same_role (e : execution) (f : file_uuid) (e0 : execution) (f0 : file_uuid) : Prop :=
  (e_stdout e = Some f /\ e_stdout e0 = Some f0) \/ (e_stderr e = Some f /\ e_stderr e0 = Some f0) \/
  (exists p, (p, f) ∈ e_outputs e /\ (p, f0) ∈ e_outputs e0).
(** The same result with the flag that says that it comes from the cache. *)
Definition as_cached (r : exec_result) : exec_result :=
  ExecResult (res_status r) (res_was_killed r) true (res_resources r) (res_stdout r) (res_stderr r).
(** The results of a worker for the group, with all the outputs in the store. *)
Definition storable (st : store_key -> bool) (g : group) (keys : gmap file_uuid store_key) (results : list exec_result) (t m : Z) : Prop :=
  g_execs g <> [] /\ made_by_worker g results /\ extras t m g /\
  (forall e, e ∈ g_execs g -> NoDup (e_outputs e).*1 /\ memory_fits (e_limits e) m) /\
  (forall f, f ∈ group_outputs g -> exists k, keys !! f = Some k /\ st k = true).
