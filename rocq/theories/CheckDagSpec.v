(** * CheckDagSpec: what a well-formed execution DAG is

    Independent of the algorithm of check_dag.rs; only the data types are shared. *)
From Verif Require Export DagModel CheckDagModel.

(** All the executions / produced files of a DAG. *)
Definition dag_execs (d : dag) : list execution := (d_groups d).*2 ≫= g_execs.
Definition dag_outputs (d : dag) : list file_uuid := dag_execs d ≫= outputs.

(** [depends d g1 g2]: group [g1] reads a file written by group [g2]. *)
Definition depends (d : dag) (g1 g2 : group_uuid) : Prop :=
  exists gr1 gr2 e1 e2 f,
    (g1, gr1) ∈ d_groups d /\ (g2, gr2) ∈ d_groups d /\
    e1 ∈ g_execs gr1 /\ e2 ∈ g_execs gr2 /\
    f ∈ dependencies e1 /\ f ∈ outputs e2.

Record well_formed (d : dag) : Prop := {
  wf_nonempty : forall k g, (k, g) ∈ d_groups d -> g_execs g <> [];
  wf_fifos : forall k g, (k, g) ∈ d_groups d -> NoDup (g_fifo g);
  wf_execs : NoDup (map e_uuid (dag_execs d));
  wf_stdout : forall e, e ∈ dag_execs d -> is_Some (e_capture_stdout e) -> is_Some (e_stdout e);
  wf_stderr : forall e, e ∈ dag_execs d -> is_Some (e_capture_stderr e) -> is_Some (e_stderr e);
  wf_files : NoDup (dag_outputs d ++ (d_provided d).*1);
  wf_deps : forall e f, e ∈ dag_execs d -> f ∈ dependencies e ->
      f ∈ dag_outputs d \/ f ∈ (d_provided d).*1;
  wf_acyclic : forall g, ~ tc (depends d) g g
}.

(** The callbacks only mention files and executions of the DAG. *)
Definition callbacks_ok (d : dag) (cb : watch_set) : Prop :=
  (forall f, f ∈ w_files cb -> f ∈ dag_outputs d \/ f ∈ (d_provided d).*1) /\
  (forall e, e ∈ w_executions cb -> e ∈ map e_uuid (dag_execs d)).

(** [runnable d order]: running the groups in this order, every input file is provided or has been
    written by a group that comes earlier. *)
Definition runnable (d : dag) (order : list group_uuid) : Prop :=
  forall before g after gr e f,
    order = before ++ g :: after -> (g, gr) ∈ d_groups d -> e ∈ g_execs gr -> f ∈ dependencies e ->
    f ∈ (d_provided d).*1 \/
    exists g' gr' e', g' ∈ before /\ (g', gr') ∈ d_groups d /\ e' ∈ g_execs gr' /\ f ∈ outputs e'.

(** ** What each error claims

    [stuck d g]: following the dependencies of [g] one reaches a group that reads a file nobody
    writes or provides, or a group on a dependency cycle. *)
Definition known_file (d : dag) (f : file_uuid) : Prop := f ∈ dag_outputs d \/ f ∈ (d_provided d).*1.
Definition reads_unknown (d : dag) (g : group_uuid) : Prop :=
  exists gr e f, (g, gr) ∈ d_groups d /\ e ∈ g_execs gr /\ f ∈ dependencies e /\ ~ known_file d f.
Definition stuck (d : dag) (g : group_uuid) : Prop :=
  exists g', rtc (depends d) g g' /\ (reads_unknown d g' \/ tc (depends d) g' g').

(** [twice x l]: [x] occurs at two different positions of [l]. *)
Definition twice {A} (x : A) (l : list A) : Prop := exists l1 l2 l3, l = l1 ++ x :: l2 ++ x :: l3.

Definition error_is_real (d : dag) (cb : watch_set) (er : dag_error) : Prop :=
  match er with
  | MissingFile f => ~ known_file d f /\
      ((exists e, e ∈ dag_execs d /\ f ∈ dependencies e) \/ f ∈ w_files cb)
  | InvalidCapture true u => exists e, e ∈ dag_execs d /\ e_uuid e = u /\
      is_Some (e_capture_stdout e) /\ e_stdout e = None
  | InvalidCapture false u => exists e, e ∈ dag_execs d /\ e_uuid e = u /\
      is_Some (e_capture_stderr e) /\ e_stderr e = None
  | MissingExecution u => u ∈ w_executions cb /\ u ∉ map e_uuid (dag_execs d)
  | CycleDetected g => exists gr, (g, gr) ∈ d_groups d /\
      (forall e f, e ∈ g_execs gr -> f ∈ dependencies e -> known_file d f) /\ stuck d g
  | DuplicateFileUUID f => twice f (dag_outputs d ++ (d_provided d).*1)
  | DuplicateFifoUUID f => exists g gr, (g, gr) ∈ d_groups d /\ twice f (g_fifo gr)
  | DuplicateExecutionUUID u => twice u (map e_uuid (dag_execs d))
  | EmptyGroup g => exists gr, (g, gr) ∈ d_groups d /\ g_execs gr = []
  end.
