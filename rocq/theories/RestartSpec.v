(** * RestartSpec: the values that exist in the program

    The types of the program bound the values of its fields; in the model they are unbounded integers.  These are the
    bounds (nothing else is assumed of an index or of a cache). *)
From Verif Require Export RestartModel.
Open Scope Z_scope.

Definition u32_ok (x : Z) : Prop := 0 <= x < 2 ^ 32.
Definition u64_ok (x : Z) : Prop := 0 <= x < 2 ^ 64.
Definition f64_ok (x : Z) : Prop := - 2 ^ 63 <= x < 2 ^ 63.
Definition time_ok (t : Z) : Prop := 0 <= t < 2 ^ 63 * 1000000000.
Definition key_ok (k : store_key) : Prop := (Npos k <= 2 ^ 256)%N.
(** Rust strings, and the paths that can be written at all, are UTF-8 (and less than 2^64 bytes long). *)
Definition str_ok (s : string) : Prop := utf8 (str_bytes s) = true /\ u64_ok (Z.of_nat (String.length s)).
Definition list_ok {A} (P : A -> Prop) (l : list A) : Prop := u64_ok (Z.of_nat (length l)) /\ Forall P l.
Definition opt_ok {A} (P : A -> Prop) (o : option A) : Prop := match o with Some a => P a | None => True end.
Definition byte_ok (b : N) : Prop := (b < 256)%N.

Definition item_ok (i : item) : Prop := u64_ok (i_size i) /\ time_ok (i_time i).
Definition index_ok (ix : index) : Prop :=
  u64_ok (ix_total ix) /\ u64_ok (Z.of_nat (size (ix_known ix))) /\
  map_Forall (fun k i => key_ok k /\ item_ok i) (ix_known ix).

Definition command_ok (c : command) : Prop := match c with System p | Local p => str_ok p end.
Definition limits_ok (l : limits) : Prop :=
  opt_ok f64_ok (l_cpu_time l) /\ opt_ok f64_ok (l_sys_time l) /\ opt_ok f64_ok (l_wall_time l) /\
  opt_ok u64_ok (l_memory l) /\ opt_ok u32_ok (l_nofile l) /\ opt_ok u64_ok (l_fsize l) /\ opt_ok u64_ok (l_memlock l) /\
  opt_ok u64_ok (l_stack l) /\ list_ok str_ok (l_extra_readable_dirs l).
Definition status_ok (s : status) : Prop :=
  match s with
  | ReturnCode c => u32_ok c
  | Signal s n => u32_ok s /\ str_ok n
  | InternalError m => str_ok m
  | _ => True
  end.
Definition resources_ok (r : resources) : Prop :=
  f64_ok (r_cpu_time r) /\ f64_ok (r_sys_time r) /\ f64_ok (r_wall_time r) /\ u64_ok (r_memory r).
Definition result_ok (r : exec_result) : Prop :=
  status_ok (res_status r) /\ resources_ok (res_resources r) /\ opt_ok (list_ok byte_ok) (res_stdout r) /\
  opt_ok (list_ok byte_ok) (res_stderr r).
Definition key_item_ok (k : key_item) : Prop :=
  command_ok (ki_command k) /\ list_ok str_ok (ki_args k) /\ opt_ok key_ok (ki_stdin k) /\
  list_ok (fun i => str_ok i.1.1 /\ key_ok i.1.2) (ki_inputs k) /\ list_ok (fun e => str_ok e.1 /\ str_ok e.2) (ki_env k).
Definition entry_item_ok (i : entry_item) : Prop :=
  result_ok (ei_result i) /\ limits_ok (ei_limits i) /\ f64_ok (ei_extra_time i) /\ u64_ok (ei_extra_memory i) /\
  opt_ok key_ok (ei_stdout i) /\ opt_ok key_ok (ei_stderr i) /\
  list_ok (fun o => str_ok o.1 /\ key_ok o.2) (ei_outputs i) /\ NoDup (map fst (ei_outputs i)).
Definition cache_ok (c : cache) : Prop :=
  NoDup (map fst c) /\
  list_ok (fun ke => list_ok key_item_ok ke.1 /\ list_ok (list_ok entry_item_ok) ke.2) c.
(** Two caches with the same entries for every key. *)
Definition same_cache (c c' : cache) : Prop := forall k, clookup k c = clookup k c'.
