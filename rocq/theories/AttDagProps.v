(** * AttDagProps: property C107, the executions that check the sample files *)
From Verif Require Import BuildModel BuildSpec CheckDagSpec CheckDagProps BuildProofs BuildProofs2 BuildProofs3 BuildProofs4 BuildProofs5 BuildProofs6
  BuildProofs7 BuildProofs8 BuildProps AttDagModel AttDagSpec AttDagProofs.
From Coq Require Import Ascii String.
From stdpp Require Import base.

(** All the source files: those of the task, the validator and the official solution *)
Definition all_sols (sols : list source) (v : input_validator) (official : option output_generator) : list source :=
  sols ++ validator_sources v ++ official_sources official.

Lemma val_src_in n0 a b v : (forall src, src ∈ validator_sources v -> src_ok n0 a b src) -> val_src n0 a b v.
Proof. destruct v as [|src l]; [done|]. intros H. apply H. by left. Qed.
Lemma official_src_in n0 a b o : (forall src, src ∈ official_sources o -> src_ok n0 a b src) -> official_src n0 a b o.
Proof. destruct o as [[|p|src l]|]; try done. intros H. apply H. by left. Qed.
Section facts.
Context (n0 : positive) (w : world) (c : build_config) (t : btask) (sols : list source) (v : input_validator) (official : option output_generator)
  (samples : list (string * string)) (HT : task_ok n0 t (all_sols sols v official)).
Definition gs : positive -> source := src_at t (all_sols sols v official).
Definition gp : positive -> string := grader_at t (all_sols sols v official).
Lemma extra_src src : src ∈ all_sols sols v official -> src_ok n0 gs gp src.
Proof. intros H. apply (src_at_ok n0 t _ HT). unfold task_sources. set_solver. Qed.
Lemma less_sources : sources_ok n0 gs gp t sols.
Proof.
  destruct (sources_ghost n0 t _ HT) as (H1 & H2 & H3 & H4). split; [exact H1|]. split; [|split; [exact H3|exact H4]].
  intros sol Hs. apply extra_src. unfold all_sols. set_solver.
Qed.
Lemma build_and_check_ok :
  ok (build_and_check w c t sols v official samples (bstate0 n0)) (fun _ s =>
    K n0 w c gs gp (bstate0 n0) (task_roles t sols ++ hook_roles t v official samples) [] [] s /\
    (forall sub tc, sub ∈ bk_subtasks t -> tc ∈ bs_owned sub -> exists fi, tc_done n0 w c t sols s sub tc fi) /\
    (forall ck p, bk_type t = TBatch ck -> p ∈ samples -> sample_done n0 w c t s v official ck p)).
Proof.
  unfold build_and_check. eapply ok_bind; [apply (build_ok n0 w c gs gp t sols less_sources (testcases_ghost n0 t _ HT))|].
  intros [] s1 (K1 & Hx & Hd & _). pose proof less_sources as (S1 & _).
  eapply ok_conseq; [apply (att_hook_ok n0 w c gs gp t v official samples [] [] s1); try done|].
  - apply val_src_in. intros src Hs. apply extra_src. unfold all_sols. set_solver.
  - apply official_src_in. intros src Hs. apply extra_src. unfold all_sols. set_solver.
  - by eapply K_inv.
  - intros [] s2 (K2 & Hs). pose proof (K_later _ _ _ _ _ _ _ _ _ _ K2) as L2.
    split; [exact (K_trans _ _ _ _ _ _ _ _ _ _ _ _ _ _ K1 K2)|]. split; [|done].
    intros sub tc Hsub Htc. destruct (Hd sub tc Hsub Htc) as [fi Hf]. exists fi.
    by apply (l_tc_done n0 w c gs gp t sols s1 s2 sub tc fi less_sources).
Qed.
End facts.

(** C107. The construction does not panic. *)
Theorem C107_no_panic : forall n0 w c t sols v official samples, task_ok n0 t (all_sols sols v official) ->
  build_and_check w c t sols v official samples (bstate0 n0) <> RPanic.
Proof.
  intros n0 w c t sols v official samples HT E. pose proof (build_and_check_ok n0 w c t sols v official samples HT) as H. by rewrite E in H.
Qed.
Print Assumptions C107_no_panic.

(** The DAG with the executions of the samples is accepted. *)
Theorem C107_accepted : forall n0 w c t sols v official samples s, task_ok n0 t (all_sols sols v official) ->
  build_and_check w c t sols v official samples (bstate0 n0) = ROk (tt, s) ->
  forall ord, (forall l, ord l ≡ₚ l) -> check_dag ord (dag_of c s) (watch_of s) = Done tt.
Proof.
  intros n0 w c t sols v official samples s HT E ord Hord.
  pose proof (build_and_check_ok n0 w c t sols v official samples HT) as H. rewrite E in H. destruct H as (HK & _).
  destruct (groups_wf n0 c s (K_inv _ _ _ _ _ _ _ _ _ _ HK)) as (H1 & H2 & H3). by apply C02_complete_and_total.
Qed.
Print Assumptions C107_accepted.

(** Each pair of sample files of a batch task: the input is validated and, if there is an official solution, solved, and
    the output of the pair is checked against what the official solution writes. *)
Theorem C107_samples : forall n0 w c t sols v official samples s ck p, task_ok n0 t (all_sols sols v official) ->
  build_and_check w c t sols v official samples (bstate0 n0) = ROk (tt, s) ->
  bk_type t = TBatch ck -> p ∈ samples -> sample_ok n0 w c t s v official ck p.
Proof.
  intros n0 w c t sols v official samples s ck p HT E Ht Hp.
  pose proof (build_and_check_ok n0 w c t sols v official samples HT) as H. rewrite E in H. destruct H as (_ & _ & H).
  by apply sample_done_ok, H.
Qed.
Print Assumptions C107_samples.

(** The evaluation of the task is what it was. *)
Theorem C107_task : forall n0 w c t sols v official samples s, task_ok n0 t (all_sols sols v official) ->
  build_and_check w c t sols v official samples (bstate0 n0) = ROk (tt, s) ->
  forall sub tc, sub ∈ bk_subtasks t -> tc ∈ bs_owned sub -> exists fi, testcase_ok n0 w c t s sols sub tc fi.
Proof.
  intros n0 w c t sols v official samples s HT E sub tc Hs Ht.
  pose proof (build_and_check_ok n0 w c t sols v official samples HT) as H. rewrite E in H. destruct H as (_ & H & _).
  destruct (H sub tc Hs Ht) as [fi Hf]. exists fi. by apply tc_done_ok.
Qed.
Print Assumptions C107_task.

(** Nothing else is run: every execution is bound once, and without the compilations the callbacks are those of the task
    and then those of the samples, in order. *)
Section bal.
Context (w : world) (c : build_config) (t : btask).
Lemma same_att_sample v official ck p : same c (att_sample w c t v official ck p).
Proof.
  unfold att_sample. apply same_bind; [apply same_provide_new|]. intros fi. apply same_bind.
  { unfold att_validate. destruct v; [apply same_ret|]. apply same_bind; [apply same_execute|]. intros e. apply same_bind; [apply same_stdout|]. intros fe.
    apply same_bind; [apply same_cerr|]. intros e'. apply bind_add. apply same_ret. }
  intros val. destruct official as [g|]; [|apply same_ret]. apply same_bind; [apply same_provide_new|]. intros ft. apply same_bind.
  { unfold att_solve. destruct g as [|q|src args].
    - apply same_bind; [apply same_new_id|]. intros f. apply same_bind; [apply same_provide_key|]. intros ?. apply same_ret.
    - destruct (w_exists w q); [apply same_provide_new|apply same_err].
    - apply same_bind; [apply same_execute|]. intros e. apply same_bind; [apply same_io|]. intros fe.
      apply same_bind; [apply same_cerr|]. intros e'. apply bind_add. apply same_ret. }
  intros fc. unfold att_check. apply same_bind; [|intros e; apply bind_add'].
  destruct ck as [|src]; [apply same_bind; [apply same_new_id|]; intros ?; apply same_ret|].
  apply same_bind; [apply same_execute|]. intros e. apply same_bind; [apply same_cout|]. intros e1. apply same_bind; [apply same_cerr|]. intros e2. apply same_ret.
Qed.
Lemma same_build_and_check sols v official samples : same c (build_and_check w c t sols v official samples).
Proof.
  unfold build_and_check. apply same_bind; [apply same_build|]. intros ?. unfold att_hook. destruct (bk_type t); [|apply same_ret|apply same_ret].
  apply same_mforeach. intros p. apply same_att_sample.
Qed.
End bal.
Theorem C107_only : forall n0 w c t sols v official samples s, task_ok n0 t (all_sols sols v official) ->
  build_and_check w c t sols v official samples (bstate0 n0) = ROk (tt, s) ->
  (b_roles s).*1 ≡ₚ map e_uuid (dag_execs (dag_of c s)) /\ NoDup (b_roles s).*1 /\
  filter (fun r => comp_role r = false) (b_roles s).*2 = task_roles t sols ++ hook_roles t v official samples.
Proof.
  intros n0 w c t sols v official samples s HT E.
  pose proof (build_and_check_ok n0 w c t sols v official samples HT) as H. rewrite E in H. destruct H as (HK & _).
  destruct (groups_wf n0 c s (K_inv _ _ _ _ _ _ _ _ _ _ HK)) as (_ & H2 & _).
  destruct (same_build_and_check w c t sols v official samples [] (bstate0 n0) tt s) as [H1 _]; [by split|done|].
  rewrite app_nil_r in H1. split; [exact H1|]. split; [rewrite H1; apply (wf_execs _ H2)|]. destruct HK as (_ & _ & H). exact H.
Qed.
Print Assumptions C107_only.

(** A dry run writes no file. *)
Theorem C107_dry_run : forall n0 w c t sols v official samples s,
  build_and_check w c t sols v official samples (bstate0 n0) = ROk (tt, s) -> cfg_dry_run (bc_dag c) = true -> b_written s = [].
Proof.
  intros n0 w c t sols v official samples s E Hd.
  destruct (same_build_and_check w c t sols v official samples [] (bstate0 n0) tt s) as [_ H1]; [by split|done|]. by apply H1.
Qed.
Print Assumptions C107_dry_run.

(** A sample file that cannot be read is an error of the whole evaluation. *)
Theorem C107_unreadable : forall n0 w c t sols v official samples ck p, task_ok n0 t (all_sols sols v official) ->
  bk_type t = TBatch ck -> p ∈ samples -> w_key w (fst p) = None \/ (is_Some official /\ w_key w (snd p) = None) ->
  build_and_check w c t sols v official samples (bstate0 n0) = RErr.
Proof.
  intros n0 w c t sols v official samples ck p HT Ht Hp Hk. pose proof (C107_no_panic n0 w c t sols v official samples HT) as Hn.
  destruct (build_and_check w c t sols v official samples (bstate0 n0)) as [[[] s]| |] eqn:E; [|done|done]. exfalso.
  destruct (C107_samples n0 w c t sols v official samples s ck p HT E Ht Hp) as (fi & val & (_ & _ & _ & H1) & _ & H2).
  destruct Hk as [Hk|[[g ->] Hk]]; [rewrite Hk in H1; by destruct H1|].
  destruct H2 as (fc & ft & (_ & _ & _ & H3) & _). rewrite Hk in H3. by destruct H3.
Qed.
Print Assumptions C107_unreadable.

(** The sample files of other tasks are not checked: nothing is run for a communication task, and no
    output is checked for a batch task without an official solution, whatever is in the files. *)
Theorem C107_not_batch : forall w c t v samples s, (forall ck, bk_type t <> TBatch ck) ->
  forall official, att_hook w c t v official samples s = ROk (tt, s).
Proof. intros w c t v samples s H official. unfold att_hook. destruct (bk_type t) as [ck|m n io|]; [by destruct (H ck)|done|done]. Qed.
Print Assumptions C107_not_batch.
Theorem C107_no_official : forall t v samples o, said_score o ∉ hook_roles t v None samples.
Proof.
  intros t v samples o H. unfold hook_roles in H. destruct (bk_type t) as [ck|m n io|]; [|by apply elem_of_nil in H|by apply elem_of_nil in H].
  apply elem_of_list_bind in H as (p & H & _). unfold sample_roles in H. rewrite app_nil_r in H. destruct v; [by apply elem_of_nil in H|].
  apply elem_of_list_singleton in H. discriminate H.
Qed.
Print Assumptions C107_no_official.

(** ** A task with two samples *)
Definition at_samples := [("/t/att/input0.txt", "/t/att/output0.txt"); ("/t/att/input1.txt", "/t/att/output1.txt")].
Definition at_world : world :=
  World (w_exists ex_world) (fun p => if bool_decide (p ∈ at_samples.*1 ++ at_samples.*2) then Some (Pos.of_nat (100 + String.length p)) else w_key ex_world p).
Definition at_val := VCustom ex_val ["tm_validation_file"].
Definition at_off := Some (OCustom ex_official []).
Definition at_built := build_and_check at_world ex_config (ex_task (TBatch (CCustom ex_chk)) (Some 256)%Z) ex_sols at_val at_off at_samples (bstate0 10).
Lemma at_ok : task_ok 10 (ex_task (TBatch (CCustom ex_chk)) (Some 256)%Z) (all_sols ex_sols at_val at_off).
Proof.
  destruct (ex_ok (TBatch (CCustom ex_chk)) (Some 256)%Z) as [H1 H2 H3 H4 H5]; [set_solver|].
  assert (HS : forall x, x ∈ task_sources (ex_task (TBatch (CCustom ex_chk)) (Some 256)%Z) (all_sols ex_sols at_val at_off) ->
    x ∈ task_sources (ex_task (TBatch (CCustom ex_chk)) (Some 256)%Z) ex_sols).
  { intros x. unfold task_sources. rewrite !elem_of_app. intros [?|[H|[?|?]]]; [by left| |by right; right; left|by right; right; right].
    unfold all_sols in H. rewrite !elem_of_app in H. destruct H as [?|[H|H]]; [by right; left| |].
    - right; right; left. cbn in H. apply elem_of_list_singleton in H as ->. cbn. by left.
    - right; left. cbn in H. apply elem_of_list_singleton in H as ->. unfold ex_sols. by left. }
  split; [|by intros; eapply H2; [apply HS|]|by intros ????? A B; apply H3; apply HS|exact H4|exact H5].
  intros a b Ha Hb. apply H1; by apply HS.
Qed.
Example C107_example :
  task_ok 10 (ex_task (TBatch (CCustom ex_chk)) (Some 256)%Z) (all_sols ex_sols at_val at_off) /\
  (exists s, at_built = ROk (tt, s)) /\
  length (roles_of at_built) = 29 /\
  drop 23 (roles_of at_built) =
    [said_invalid "/t/att/input0.txt"; said_solution "/t/att/input0.txt"; said_score "/t/att/output0.txt";
     said_invalid "/t/att/input1.txt"; said_solution "/t/att/input1.txt"; said_score "/t/att/output1.txt"].
Proof.
  split; [apply at_ok|].
  assert (L : length (roles_of at_built) = 29) by (vm_compute; reflexivity). split; [|split; [exact L|vm_compute; reflexivity]].
  destruct at_built as [[[] s]| |] eqn:E; [by exists s|discriminate L|discriminate L].
Qed.
