(** * CheckDagModel: task-maker-exec/src/check_dag.rs, [check_dag] (lines 68-204)

    Definitions only.  Descriptions carried by the errors are left out. *)
From Verif Require Export DagModel.

(** check_dag.rs:7-63 [DAGError] *)
Inductive dag_error :=
  | MissingFile (f : file_uuid)
  | InvalidCapture (is_stdout : bool) (e : exec_uuid)
  | MissingExecution (e : exec_uuid)
  | CycleDetected (g : group_uuid)
  | DuplicateFileUUID (f : file_uuid)
  | DuplicateFifoUUID (f : fifo_uuid)
  | DuplicateExecutionUUID (e : exec_uuid)
  | EmptyGroup (g : group_uuid).

(** Outcome of running (part of) the function: a value, an early [return Err(..)],
    a panic ([expect]/[assert_ne!]/indexing), or fuel exhaustion of the model. *)
Inductive outcome (A : Type) :=
  | Done (a : A)
  | Fail (e : dag_error)
  | Panic
  | NoFuel.
Arguments Done {A} _. Arguments Fail {A} _. Arguments Panic {A}. Arguments NoFuel {A}.

Definition obind {A B} (x : outcome A) (f : A -> outcome B) : outcome B :=
  match x with Done a => f a | Fail e => Fail e | Panic => Panic | NoFuel => NoFuel end.
Notation "'let?' x := m 'in' k" := (obind m (fun x => k))
  (at level 200, x name, m at level 100, k at level 200, right associativity).

Fixpoint ofold {A B} (f : B -> A -> outcome B) (l : list A) (b : B) : outcome B :=
  match l with [] => Done b | x :: l => let? b' := f b x in ofold f l b' end.

(** check_dag.rs:69-74: the local variables of the function. *)
Record vars := Vars {
  v_deps : gmap file_uuid (list group_uuid);   (* dependencies *)
  v_num : gmap group_uuid nat;                  (* num_dependencies *)
  v_files : gset file_uuid;                     (* known_files *)
  v_execs : gset exec_uuid;                     (* known_execs *)
  v_rgroups : list group_uuid;                  (* ready_groups, front first *)
  v_rfiles : list file_uuid                     (* ready_files, front first *)
}.
Definition vars0 : vars := Vars ∅ ∅ ∅ ∅ [] [].

(** check_dag.rs:76-78 [add_dependency] *)
Definition add_dependency (m : gmap file_uuid (list group_uuid)) (f : file_uuid) (g : group_uuid) :=
  <[ f := default [] (m !! f) ++ [g] ]> m.

(** check_dag.rs:85-90: the fifo loop. *)
Definition check_fifos (l : list fifo_uuid) : outcome (gset fifo_uuid) :=
  ofold (fun s f => if decide (f ∈ s) then Fail (DuplicateFifoUUID f) else Done ({[f]} ∪ s)) l ∅.

(** check_dag.rs:115-119: insertion of the outputs in [known_files]. *)
Definition insert_files (l : list file_uuid) (s : gset file_uuid) : outcome (gset file_uuid) :=
  ofold (fun s f => if decide (f ∈ s) then Fail (DuplicateFileUUID f) else Done ({[f]} ∪ s)) l s.

Definition isS {A} (o : option A) : bool := match o with Some _ => true | None => false end.

(** check_dag.rs:92-120: the body of the loop over the executions of a group; the
    second component is [count]. *)
Definition visit_exec (gid : group_uuid) (st : vars * nat) (e : execution) : outcome (vars * nat) :=
  let '(v, count) := st in
  let deps := dependencies e in
  if decide (e_uuid e ∈ v_execs v) then Fail (DuplicateExecutionUUID (e_uuid e)) else
  let execs := {[ e_uuid e ]} ∪ v_execs v in
  let count := count + length deps in
  let dm := fold_left (fun m f => add_dependency m f gid) deps (v_deps v) in
  if isS (e_capture_stdout e) && negb (isS (e_stdout e)) then Fail (InvalidCapture true (e_uuid e)) else
  if isS (e_capture_stderr e) && negb (isS (e_stderr e)) then Fail (InvalidCapture false (e_uuid e)) else
  let? files := insert_files (outputs e) (v_files v) in
  Done (Vars dm (v_num v) files execs (v_rgroups v) (v_rfiles v), count).

(** check_dag.rs:81-125: the body of the loop over the groups. *)
Definition visit_group (v : vars) (kg : group_uuid * group) : outcome vars :=
  let '(gid, g) := kg in
  match g_execs g with
  | [] => Fail (EmptyGroup gid)
  | _ =>
    let? _ := check_fifos (g_fifo g) in
    let? vc := ofold (visit_exec gid) (g_execs g) (v, 0) in
    let '(v, count) := vc in
    let num := <[ gid := count ]> (v_num v) in
    let rg := if bool_decide (count = 0) then v_rgroups v ++ [gid] else v_rgroups v in
    Done (Vars (v_deps v) num (v_files v) (v_execs v) rg (v_rfiles v))
  end.

(** check_dag.rs:127-132: the provided files. *)
Definition visit_provided (v : vars) (f : file_uuid) : outcome vars :=
  let rf := v_rfiles v ++ [f] in
  if decide (f ∈ v_files v) then Fail (DuplicateFileUUID f)
  else Done (Vars (v_deps v) (v_num v) ({[f]} ∪ v_files v) (v_execs v) (v_rgroups v) rf).

(** check_dag.rs:139-151: one element of [dependencies[&file]]. *)
Definition decr (st : gmap group_uuid nat * list group_uuid) (g : group_uuid)
    : outcome (gmap group_uuid nat * list group_uuid) :=
  let '(num, rg) := st in
  match num !! g with
  | None => Panic                  (* "num_dependencies of an unknown execution group" *)
  | Some 0 => Panic                (* "num_dependencies is going to be negative" *)
  | Some (S n) => Done (<[g := n]> num, if bool_decide (n = 0) then rg ++ [g] else rg)
  end.

(** check_dag.rs:135-153: draining [ready_files]. *)
Definition drain_file (deps : gmap file_uuid (list group_uuid))
    (st : gmap group_uuid nat * list group_uuid) (f : file_uuid) :=
  match deps !! f with
  | None => Done st
  | Some l => ofold decr l st
  end.

(** check_dag.rs:154-164: draining [ready_groups]. *)
Definition drain_group (d : dag) (rf : list file_uuid) (gid : group_uuid) : outcome (list file_uuid) :=
  match alookup gid (d_groups d) with
  | None => Panic                  (* "No such exec group" *)
  | Some g => Done (rf ++ group_outputs g)
  end.

(** check_dag.rs:134-165: the visit loop. *)
Fixpoint visit (fuel : nat) (d : dag) (deps : gmap file_uuid (list group_uuid))
    (num : gmap group_uuid nat) (rg : list group_uuid) (rf : list file_uuid)
    : outcome (gmap group_uuid nat) :=
  match rg, rf with
  | [], [] => Done num
  | _, _ =>
    match fuel with
    | 0 => NoFuel
    | S fuel =>
      let? nr := ofold (drain_file deps) rf (num, rg) in
      let '(num, rg) := nr in
      let? rf := ofold (drain_group d) rg [] in
      visit fuel d deps num [] rf
    end
  end.

(** check_dag.rs:167-185: [order] is the iteration order of [num_dependencies]. *)
Fixpoint unreachable_groups (d : dag) (num : gmap group_uuid nat) (files : gset file_uuid)
    (order : list group_uuid) : outcome unit :=
  match order with
  | [] => Done tt
  | g :: order =>
    match num !! g with
    | None | Some 0 => unreachable_groups d num files order
    | Some (S _) =>
      match alookup g (d_groups d) with
      | None => Panic
      | Some gr =>
        match filter (fun f => f ∉ files) (group_deps gr) with
        | f :: _ => Fail (MissingFile f)
        | [] => Fail (CycleDetected g)
        end
      end
    end
  end.

(** executor.rs:33-43 [ExecutionDAGWatchSet] *)
Record watch_set := WatchSet {
  w_executions : list exec_uuid;
  w_files : list file_uuid;
  w_urgent : list file_uuid
}.

(** check_dag.rs:68-204.  [ord] chooses the iteration order of [num_dependencies] at
    line 167 (the only HashMap built by the function that is iterated). *)
Definition check_dag (ord : list group_uuid -> list group_uuid) (d : dag) (cb : watch_set)
    : outcome unit :=
  let? v := ofold visit_group (d_groups d) vars0 in
  let? v := ofold visit_provided (d_provided d).*1 v in
  let? num := visit (S (S (length (d_groups d)))) d (v_deps v) (v_num v) (v_rgroups v) (v_rfiles v) in
  let? _ := unreachable_groups d num (v_files v) (ord (d_groups d).*1) in
  let? _ := ofold (fun _ f => if decide (f ∈ v_files v) then Done tt else Fail (MissingFile f)) (w_files cb) tt in
  ofold (fun _ e => if decide (e ∈ v_execs v) then Done tt else Fail (MissingExecution e)) (w_executions cb) tt.
