(** * CheckDagProps: properties C01, C02, C56 of DAG validation *)
From Verif Require Import CheckDagModel CheckDagSpec CheckDagProofs2 CheckDagProofs3.
From stdpp Require Import relations.

(** C01. Acceptance implies well-formedness, valid callbacks and a runnable order of all the groups. *)
Theorem C01_accepted_is_well_formed :
  forall ord d cb, NoDup (d_groups d).*1 -> (forall l, ord l ≡ₚ l) ->
  check_dag ord d cb = Done tt ->
  well_formed d /\ callbacks_ok d cb /\
  exists order, order ≡ₚ (d_groups d).*1 /\ runnable d order.
Proof.
  intros ord d cb Hk Hord H. pose proof (check_dag_spec ord d cb Hk Hord) as Hs. rewrite H in Hs. exact Hs.
Qed.
Print Assumptions C01_accepted_is_well_formed.

(** C02. Validation never panics (nor loops: the model's fuel is never exhausted), and it accepts
    exactly the well-formed DAGs, for every iteration order of the map. *)
Theorem C02_complete_and_total :
  forall ord d cb, NoDup (d_groups d).*1 -> (forall l, ord l ≡ₚ l) ->
  (check_dag ord d cb = Done tt <-> well_formed d /\ callbacks_ok d cb) /\
  (check_dag ord d cb = Done tt \/ exists er, check_dag ord d cb = Fail er).
Proof.
  intros ord d cb Hk Hord. pose proof (check_dag_spec ord d cb Hk Hord) as Hs.
  destruct (check_dag ord d cb) as [[]|er| |]; try done; naive_solver.
Qed.
Print Assumptions C02_complete_and_total.

Theorem C02_order_independent :
  forall ord1 ord2 d1 d2 cb, NoDup (d_groups d1).*1 ->
  (forall l, ord1 l ≡ₚ l) -> (forall l, ord2 l ≡ₚ l) ->
  d_groups d1 ≡ₚ d_groups d2 -> d_provided d1 ≡ₚ d_provided d2 ->
  check_dag ord1 d1 cb = Done tt <-> check_dag ord2 d2 cb = Done tt.
Proof.
  intros ord1 ord2 d1 d2 cb Hk1 Ho1 Ho2 Hp1 Hp2.
  assert (Hk2 : NoDup (d_groups d2).*1) by (by rewrite <- Hp1).
  destruct (C02_complete_and_total ord1 d1 cb Hk1 Ho1) as [-> _].
  destruct (C02_complete_and_total ord2 d2 cb Hk2 Ho2) as [-> _].
  clear Hk1 Hk2 Ho1 Ho2 ord1 ord2.
  assert (Hx : forall d1 d2, d_groups d1 ≡ₚ d_groups d2 -> d_provided d1 ≡ₚ d_provided d2 ->
    well_formed d1 /\ callbacks_ok d1 cb -> well_formed d2 /\ callbacks_ok d2 cb).
  { clear. intros d1 d2 Hp1 Hp2 [Hw [Hc1 Hc2]].
    assert (He : dag_execs d1 ≡ₚ dag_execs d2) by (unfold dag_execs; by rewrite Hp1).
    assert (Ho : dag_outputs d1 ≡ₚ dag_outputs d2) by (unfold dag_outputs; by rewrite He).
    destruct Hw as [H1 H2 H3 H4 H5 H6 H7 H8]. split; [constructor|split].
    - intros k g. rewrite <- Hp1. apply H1.
    - intros k g. rewrite <- Hp1. apply H2.
    - by rewrite <- He.
    - intros e. rewrite <- He. apply H4.
    - intros e. rewrite <- He. apply H5.
    - by rewrite <- Ho, <- Hp2.
    - intros e f. rewrite <- He, <- Ho, <- Hp2. apply H7.
    - intros g Hg. apply (H8 g). eapply tc_congruence with (f := fun x => x) in Hg; [exact Hg|].
      intros x y (gr1&gr2&e1&e2&f&Hx). exists gr1, gr2, e1, e2, f. by rewrite !Hp1.
    - intros f. rewrite <- Ho, <- Hp2. apply Hc1.
    - intros e. rewrite <- He. apply Hc2. }
  split; apply Hx; done.
Qed.
Print Assumptions C02_order_independent.

(** C56. Every error names an actual defect ([error_is_real]); [CycleDetected g] only says that the
    group is stuck: because of a cycle or of a missing file further up. *)
Theorem C56_errors_are_real_partial :
  forall ord d cb er, NoDup (d_groups d).*1 -> (forall l, ord l ≡ₚ l) ->
  check_dag ord d cb = Fail er -> error_is_real d cb er.
Proof. exact check_dag_err. Qed.
Print Assumptions C56_errors_are_real_partial.

(** ** Examples: a source file (1) compiled (exec 1: file 1 -> file 2), run on a provided input
    (group 2: files 2, 3 -> stdout 4) together with a second execution of the same group. *)
Definition ex_limits : limits :=
  Limits None None None None false None None None None true false false [].
Definition ex_config : dag_config := DagConfig false CacheEverything 0 0 0.
Definition ex_exec (u : exec_uuid) (stdin stdout : option file_uuid) (ins : list (path * exec_input))
    (outs : list (path * file_uuid)) : execution :=
  Execution u (System "g++") [] stdin stdout None (Some 128%N) None ins outs None None None [] [] ex_limits
    ex_config None 0.
Definition ex_g1 : group := Group 1 [ex_exec 1 None (Some 5%positive) [("a.cpp", ExecInput 1 false)] [("a.out", 2%positive)]] [].
Definition ex_g2 : group := Group 2
  [ex_exec 2 (Some 3%positive) (Some 4%positive) [("a.out", ExecInput 2 true)] [];
   ex_exec 3 None (Some 6%positive) [("a.out", ExecInput 2 true)] []] [1%positive; 2%positive].
Definition ex_dag : dag := Dag [(1%positive, 11%positive); (3%positive, 13%positive)] [(2%positive, ex_g2); (1%positive, ex_g1)] ex_config.
Definition ex_cb : watch_set := WatchSet [2%positive] [4%positive; 1%positive] [4%positive].

Example ex_accepted : NoDup (d_groups ex_dag).*1 /\ check_dag (fun l => l) ex_dag ex_cb = Done tt.
Proof. split; [|by vm_compute]. apply (bool_decide_unpack _). by vm_compute. Qed.

(** The dependency of group 2 on group 1 exists, so acyclicity is not vacuous. *)
Example ex_depends : depends ex_dag 2 1.
Proof.
  exists ex_g2, ex_g1, (ex_exec 2 (Some 3%positive) (Some 4%positive) [("a.out", ExecInput 2 true)] []),
    (ex_exec 1 None (Some 5%positive) [("a.cpp", ExecInput 1 false)] [("a.out", 2%positive)]), 2%positive.
  unfold ex_dag, ex_g1, ex_g2, dependencies, outputs. simpl. set_solver.
Qed.

(** A two-group cycle is reported as a cycle. *)
Definition ex_cycle : dag := Dag []
  [(1%positive, Group 1 [ex_exec 1 (Some 2%positive) (Some 1%positive) [] []] []);
   (2%positive, Group 2 [ex_exec 2 (Some 1%positive) (Some 2%positive) [] []] [])] ex_config.
Example ex_cycle_rejected : check_dag (fun l => l) ex_cycle (WatchSet [] [] []) = Fail (CycleDetected 1).
Proof. by vm_compute. Qed.

(** Finding: with a missing file (9) and no cycle at all, the downstream group is reported as a cycle
    when it comes first in the iteration order of the hash map, and as a missing file otherwise. *)
Definition ex_missing : dag := Dag []
  [(1%positive, Group 1 [ex_exec 1 (Some 9%positive) (Some 1%positive) [] []] []);
   (2%positive, Group 2 [ex_exec 2 (Some 1%positive) (Some 2%positive) [] []] [])] ex_config.
Lemma ex_missing_depends g1 g2 : depends ex_missing g1 g2 -> g1 = 2%positive /\ g2 = 1%positive.
Proof.
  intros (gr1&gr2&e1&e2&f&H1&H2&H3&H4&H5&H6).
  unfold ex_missing in H1, H2. simpl in H1, H2.
  apply elem_of_cons in H1 as [H1|H1]; [|apply elem_of_list_singleton in H1]; injection H1 as -> ->;
  (apply elem_of_cons in H2 as [H2|H2]; [|apply elem_of_list_singleton in H2]; injection H2 as -> ->);
  simpl in H3, H4; apply elem_of_list_singleton in H3 as ->; apply elem_of_list_singleton in H4 as ->;
  unfold dependencies, outputs in H5, H6; simpl in H5, H6;
  apply elem_of_list_singleton in H5 as ->; apply elem_of_list_singleton in H6; done.
Qed.
Theorem C56_cycle_error_without_cycle_refuted :
  exists ord d cb g, NoDup (d_groups d).*1 /\ (forall l, ord l ≡ₚ l) /\
    check_dag ord d cb = Fail (CycleDetected g) /\ (forall g', ~ tc (depends d) g' g').
Proof.
  exists (fun l => rev l), ex_missing, (WatchSet [] [] []), 2%positive.
  split; [apply (bool_decide_unpack _); by vm_compute|].
  split; [intros l; symmetry; apply Permutation_rev|].
  split; [by vm_compute|]. intros g' Hg.
  assert (Hx : forall a b, tc (depends ex_missing) a b -> a = 2%positive /\ b = 1%positive).
  { intros a b Ht. induction Ht as [a b H|a b c H _ [-> ->]]; [by apply ex_missing_depends|].
    apply ex_missing_depends in H as [? ?]. done. }
  apply Hx in Hg as [-> ?]. done.
Qed.
Print Assumptions C56_cycle_error_without_cycle_refuted.
