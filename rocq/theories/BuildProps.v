(** * BuildProps: property C67, the DAG that is built for a task *)
From Verif Require Import BuildModel BuildSpec CheckDagSpec CheckDagProps BuildProofs BuildProofs2 BuildProofs3 BuildProofs4 BuildProofs5 BuildProofs6 BuildProofs7 BuildProofs8.
From stdpp Require Import relations.

Lemma build_facts n0 w c t sols s : task_ok n0 t sols -> build_dag w c t sols (bstate0 n0) = ROk (tt, s) ->
  K n0 w c (src_at t sols) (grader_at t sols) (bstate0 n0) (task_roles t sols) [] [] s /\
  (forall sub tc, sub ∈ bk_subtasks t -> tc ∈ bs_owned sub -> exists fi, tc_done n0 w c t sols s sub tc fi) /\
  (forall sub tc, sub ∈ bk_subtasks t -> tc ∈ bs_testcases sub -> other_done n0 w c t sols s sub tc).
Proof.
  intros HT E. pose proof (build_ok n0 w c (src_at t sols) (grader_at t sols) t sols (sources_ghost n0 t sols HT) (testcases_ghost n0 t sols HT)) as H.
  rewrite E in H. unfold ok in H. tauto.
Qed.

(** C67. The construction does not panic. *)
Theorem C67_no_panic : forall n0 w c t sols, task_ok n0 t sols -> build_dag w c t sols (bstate0 n0) <> RPanic.
Proof.
  intros n0 w c t sols HT E. pose proof (build_ok n0 w c (src_at t sols) (grader_at t sols) t sols (sources_ghost n0 t sols HT) (testcases_ghost n0 t sols HT)) as H.
  by rewrite E in H.
Qed.
Print Assumptions C67_no_panic.

(** It succeeds if the files of the task are there. *)
Theorem C67_total : forall n0 w c t sols, task_ok n0 t sols -> files_there w t sols ->
  exists s, build_dag w c t sols (bstate0 n0) = ROk (tt, s).
Proof.
  intros n0 w c t sols HT HF. pose proof (C67_no_panic n0 w c t sols HT) as Hp. pose proof (fine_build w c t sols (bstate0 n0)) as H.
  destruct (build_dag w c t sols (bstate0 n0)) as [[[] s]| |]; [by exists s| |done]. destruct H; [by intros i f|done].
Qed.
Print Assumptions C67_total.

(** The validation of the DAG accepts it. *)
Theorem C67_accepted : forall n0 w c t sols s, task_ok n0 t sols -> build_dag w c t sols (bstate0 n0) = ROk (tt, s) ->
  forall ord, (forall l, ord l ≡ₚ l) -> check_dag ord (dag_of c s) (watch_of s) = Done tt.
Proof.
  intros n0 w c t sols s HT E ord Hord. destruct (build_facts n0 w c t sols s HT E) as [HK _].
  destruct (groups_wf n0 c s (K_inv _ _ _ _ _ _ _ _ _ _ HK)) as (H1 & H2 & H3). by apply C02_complete_and_total.
Qed.
Print Assumptions C67_accepted.

(** Every execution of the DAG is bound to exactly one message; without the compilations, these are the messages
    of the task, in this order. *)
Theorem C67_roles : forall n0 w c t sols s, task_ok n0 t sols -> build_dag w c t sols (bstate0 n0) = ROk (tt, s) ->
  (b_roles s).*1 ≡ₚ map e_uuid (dag_execs (dag_of c s)) /\ NoDup (b_roles s).*1 /\
  filter (fun r => comp_role r = false) (b_roles s).*2 = task_roles t sols.
Proof.
  intros n0 w c t sols s HT E. destruct (build_facts n0 w c t sols s HT E) as [HK _].
  destruct (groups_wf n0 c s (K_inv _ _ _ _ _ _ _ _ _ _ HK)) as (_ & H2 & _).
  destruct (build_balanced w c n0 t sols s E) as [H1 _]. split; [exact H1|]. split; [rewrite H1; apply (wf_execs _ H2)|].
  destruct HK as (_ & _ & H). exact H.
Qed.
Print Assumptions C67_roles.

(** The compilations: each source file that is used and compiled, once. *)
Theorem C67_compile_once : forall n0 w c t sols s, task_ok n0 t sols -> build_dag w c t sols (bstate0 n0) = ROk (tt, s) ->
  exists srcs, NoDup (map sf_id srcs) /\
    (forall src, src ∈ srcs -> src ∈ used_sources t sols /\ is_Some (sf_compile src)) /\
    filter (fun r => comp_role r = true) (b_roles s).*2 = map (fun src => RCompilation (sf_path src)) srcs.
Proof.
  intros n0 w c t sols s HT E. destruct (build_facts n0 w c t sols s HT E) as [HK _].
  destruct HK as (_ & HL & _). destruct (l_comps _ _ _ _ _ _ _ HL) as (ids & Hnd & Hids & Hc).
  pose proof (fine_build w c t sols (bstate0 n0)) as HF. rewrite E in HF. assert (HU : UI t sols s) by (apply HF; by intros i f).
  assert (Hat : forall i, i ∈ ids -> src_at t sols i ∈ used_sources t sols /\ sf_id (src_at t sols i) = i /\ is_Some (sf_compile (src_at t sols i))).
  { intros i Hi. apply Hids in Hi as (_ & [f Hf] & Hcm). destruct (HU i f Hf) as (src & Hsrc & <-).
    destruct (src_at_ok n0 t sols HT src (used_task _ _ _ Hsrc)) as [Hs _]. rewrite Hs in *. done. }
  exists (map (src_at t sols) ids). split; [|split].
  - rewrite map_map. rewrite (map_ext_in _ id), map_id; [done|]. intros i Hi. apply elem_of_list_In, Hat in Hi as (_ & ? & _). done.
  - intros src Hsrc. apply elem_of_list_In, in_map_iff in Hsrc as (i & <- & Hi). apply elem_of_list_In, Hat in Hi. tauto.
  - rewrite map_map. exact Hc.
Qed.
Print Assumptions C67_compile_once.

(** Every testcase of every subtask that owns it is generated, validated, solved, and every solution is run and checked
    on the files it should be. *)
Theorem C67_testcase : forall n0 w c t sols s, task_ok n0 t sols -> build_dag w c t sols (bstate0 n0) = ROk (tt, s) ->
  forall sub tc, sub ∈ bk_subtasks t -> tc ∈ bs_owned sub -> exists fi, testcase_ok n0 w c t s sols sub tc fi.
Proof.
  intros n0 w c t sols s HT E sub tc Hs Ht. destruct (build_facts n0 w c t sols s HT E) as (_ & H & _). destruct (H sub tc Hs Ht) as [fi Hf].
  exists fi. by apply tc_done_ok.
Qed.
Print Assumptions C67_testcase.

(** The other subtasks that use a testcase validate the same input file. *)
Theorem C67_other : forall n0 w c t sols s, task_ok n0 t sols -> build_dag w c t sols (bstate0 n0) = ROk (tt, s) ->
  forall sub tc, sub ∈ bk_subtasks t -> tc ∈ bs_testcases sub -> tc ∉ bs_owned sub ->
  exists owner fi val, owner ∈ bk_subtasks t /\ tc ∈ bs_owned owner /\ testcase_ok n0 w c t s sols owner tc fi /\
    validation_ok n0 w c s (bs_validator sub) (bs_id sub) (bs_name sub) tc fi val.
Proof.
  intros n0 w c t sols s HT E sub tc Hs Ht Hn. destruct (build_facts n0 w c t sols s HT E) as (_ & _ & H).
  destruct (H sub tc Hs Ht Hn) as (owner & fi & val & H1 & H2 & H3 & H4). exists owner, fi, val. split; [done|]. split; [done|]. split; [by apply tc_done_ok|done].
Qed.
Print Assumptions C67_other.

(** A dry run writes no file. *)
Theorem C67_dry_run : forall n0 w c t sols s, build_dag w c t sols (bstate0 n0) = ROk (tt, s) ->
  cfg_dry_run (bc_dag c) = true -> b_written s = [].
Proof. intros n0 w c t sols s E. by apply (build_balanced w c n0 t sols s E). Qed.
Print Assumptions C67_dry_run.

(** ** A task *)
Definition ex_world : world :=
  World (fun p => bool_decide (p ∈ ["/t/gen/extra.txt"; "/t/static.txt"]))
        (fun p => if bool_decide (p ∈ ["/t/gen.cpp"; "/t/testlib.h"; "/t/val.py"; "/t/lib.py"; "/t/sol.cpp"; "/t/official.py"; "/t/grader.cpp"; "/t/grader.py"; "/t/chk.cpp"; "/t/gen/extra.txt"; "/t/static.txt"])
                  then Some (Pos.of_nat (String.length p)) else None).
Definition ex_cs (p b : string) : compile_spec := CompileSpec (System "g++") ["-O2"; "-o"; b] p b [Dependency "/t/testlib.h" "testlib.h"] false [("TMPDIR", "/x")] ["/etc"].
Definition ex_src (i : positive) (name : string) (comp : bool) (gr : option (file_uuid * dependency)) : source :=
  Source i ("/t/" +:+ name) "/t/gen" (if comp then Some (ex_cs name "exe") else None) gr (Some ("/t/bin/" +:+ name)) false
    (if comp then "exe" else name) (Local "exe") (fun a => a) (if comp then [] else [Dependency "/t/lib.py" "lib.py"]) allow_multiprocess.
Definition ex_gen := ex_src 1 "gen.cpp" true None.
Definition ex_val := ex_src 2 "val.py" false None.
Definition ex_sol := ex_src 3 "sol.cpp" true (Some (1%positive, Dependency "/t/grader.cpp" "grader.cpp")).
Definition ex_official := ex_src 4 "official.py" false (Some (2%positive, Dependency "/t/grader.py" "grader.py")).
Definition ex_chk := ex_src 5 "chk.cpp" true None.
Definition ex_sub0 := BSubtask 0 (Some "small") (VCustom ex_val ["tm_validation_file"]) [0; 1] [0; 1].
Definition ex_sub1 := BSubtask 1 None (VCustom ex_val ["tm_validation_file"; "2"]) [1; 2] [2].
Definition ex_task (ty : task_type) (mem : option Z) : btask := BTask "/t" ty (Some 1000)%Z mem None (Some "output.txt") [ex_sub0; ex_sub1]
  (<[0 := BTestcase (ICustom ex_gen ["1"; "extra.txt"]) (OCustom ex_official [])]>
   (<[1 := BTestcase (ICustom ex_gen ["2"]) ONotAvailable]>
    (<[2 := BTestcase (IStatic "/t/static.txt") (OCustom ex_official [])]> ∅))).
Definition ex_config : build_config := BuildConfig (DagConfig false CacheEverything 0 0 0) true 77%positive.
Definition ex_sols := [ex_official; ex_sol].
Lemma ex_task_sources ty mem : forall x, x ∈ task_sources (ex_task ty mem) ex_sols -> x ∈ type_sources ty ++ [ex_gen; ex_val; ex_sol; ex_official].
Proof.
  intros x. unfold task_sources. cbn [bk_type ex_task bk_testcases bk_subtasks]. rewrite !elem_of_app. intros [?|[H|[H|H]]]; [by left|right..].
  - unfold ex_sols in H. set_solver.
  - cbn in H. set_solver.
  - apply elem_of_list_bind in H as (b & H & Hb). apply elem_of_list_fmap in Hb as ([k b'] & -> & Hb). apply elem_of_map_to_list in Hb. cbn in H.
    rewrite !lookup_insert_Some, lookup_empty in Hb.
    destruct Hb as [[_ <-]|[_ [[_ <-]|[_ [[_ <-]|[_ ?]]]]]]; cbn in H; [set_solver|set_solver|set_solver|done].
Qed.
Lemma ex_ok ty mem : type_sources ty ⊆ [ex_chk] -> task_ok 10 (ex_task ty mem) ex_sols.
Proof.
  intros Hty.
  assert (HS : forall x, x ∈ task_sources (ex_task ty mem) ex_sols -> x = ex_chk \/ x = ex_gen \/ x = ex_val \/ x = ex_sol \/ x = ex_official).
  { intros x Hx%ex_task_sources. set_solver. }
  split.
  - intros s1 s2 [->|[->|[->|[->| ->]]]]%HS [->|[->|[->|[->| ->]]]]%HS E; done || by vm_compute in E.
  - intros s0 gf gd [->|[->|[->|[->| ->]]]]%HS E; vm_compute in E; try done; by injection E as <- _.
  - intros s1 s2 gf gd1 gd2 [->|[->|[->|[->| ->]]]]%HS [->|[->|[->|[->| ->]]]]%HS E1 E2; vm_compute in E1, E2; congruence.
  - intros sub tc Hs Ht. cbn in Hs. repeat (apply elem_of_cons in Hs as [->|Hs]); [| |by apply elem_of_nil in Hs]; cbn in Ht;
      repeat (apply elem_of_cons in Ht as [->|Ht]); try (by apply elem_of_nil in Ht); vm_compute; by eexists.
  - intros sub tc Hs Ht. cbn in Hs. repeat (apply elem_of_cons in Hs as [->|Hs]); [| |by apply elem_of_nil in Hs]; cbn in Ht;
      repeat (apply elem_of_cons in Ht as [->|Ht]); try (by apply elem_of_nil in Ht).
    + exists ex_sub0. split; set_solver.
    + exists ex_sub0. split; set_solver.
    + exists ex_sub0. split; set_solver.
    + exists ex_sub1. split; set_solver.
Qed.
Lemma ex_there ty mem : type_sources ty ⊆ [ex_chk] -> files_there ex_world (ex_task ty mem) ex_sols.
Proof.
  intros Hty.
  assert (HS : forall x, x ∈ used_sources (ex_task ty mem) ex_sols -> x = ex_chk \/ x = ex_gen \/ x = ex_val \/ x = ex_sol \/ x = ex_official).
  { intros x Hx%used_task%ex_task_sources. set_solver. }
  split.
  - intros p Hp. cbn in Hp. apply bool_decide_eq_true in Hp. cbn [ex_world w_key]. rewrite bool_decide_true by set_solver. by eexists.
  - intros src [->|[->|[->|[->| ->]]]]%HS; (split; [vm_compute; by eexists|]); (split; [|split]).
    all: try (intros d Hd; cbn in Hd; repeat (apply elem_of_cons in Hd as [->|Hd]); [vm_compute; by eexists|by apply elem_of_nil in Hd]).
    all: try (intros d Hd; cbn in Hd; by apply elem_of_nil in Hd).
    all: try (intros gf gd E; vm_compute in E; try discriminate; injection E as <- <-; vm_compute; by eexists).
    all: intros cs d E Hd; cbn in E; try discriminate; injection E as <-; cbn in Hd; repeat (apply elem_of_cons in Hd as [->|Hd]); [vm_compute; by eexists|by apply elem_of_nil in Hd].
  - intros tc b p Hb E. cbn [ex_task bk_testcases] in Hb. rewrite !lookup_insert_Some, lookup_empty in Hb.
    destruct Hb as [[_ <-]|[_ [[_ <-]|[_ [[_ <-]|[_ ?]]]]]]; try done; cbn in E; try discriminate. by injection E as <-.
  - intros tc b p Hb E. cbn [ex_task bk_testcases] in Hb. rewrite !lookup_insert_Some, lookup_empty in Hb.
    destruct Hb as [[_ <-]|[_ [[_ <-]|[_ [[_ <-]|[_ ?]]]]]]; try done; cbn in E; discriminate.
Qed.
(** the messages of a batch task with a custom checker and of a communication task with two processes *)
Definition built (ty : task_type) (mem : option Z) : res (unit * bstate) := build_dag ex_world ex_config (ex_task ty mem) ex_sols (bstate0 10).
Definition roles_of (r : res (unit * bstate)) : list role := match r with ROk (_, s) => (b_roles s).*2 | _ => [] end.
Definition groups_of (r : res (unit * bstate)) : list (nat * nat) :=
  match r with ROk (_, s) => map (fun g => (length (g_execs (snd g)), length (g_fifo (snd g)))) (b_groups s) | _ => [] end.
Example C67_example_batch :
  task_ok 10 (ex_task (TBatch (CCustom ex_chk)) (Some 256)%Z) ex_sols /\ files_there ex_world (ex_task (TBatch (CCustom ex_chk)) (Some 256)%Z) ex_sols /\
  (length (roles_of (built (TBatch (CCustom ex_chk)) (Some 256)%Z)) = 23) /\
  filter (fun r => comp_role r = true) (roles_of (built (TBatch (CCustom ex_chk)) (Some 256)%Z)) = [RCompilation "/t/chk.cpp"; RCompilation "/t/gen.cpp"; RCompilation "/t/sol.cpp"].
Proof. split; [apply ex_ok; set_solver|]. split; [apply ex_there; set_solver|]. split; vm_compute; reflexivity. Qed.
Example C67_example_communication :
  task_ok 10 (ex_task (TCommunication ex_chk 2 StdIo) (Some 256)%Z) ex_sols /\
  length (filter (fun g => g = (3, 4)) (groups_of (built (TCommunication ex_chk 2 StdIo) (Some 256)%Z))) = 6.
Proof. split; [apply ex_ok; set_solver|]. vm_compute; reflexivity. Qed.

(** What does not hold: *)
(** a memory limit of 2^54 MiB is no memory at all (u64 product), *)
Definition memories_of (r : res (unit * bstate)) : list (option Z) :=
  match r with ROk (_, s) => map (fun e => l_memory (e_limits e)) (filter (fun e => e_tag e = Some "evaluation") (execs_of s)) | _ => [] end.
Theorem C67_memory_refuted :
  exists n0 w c t sols s e, task_ok n0 t sols /\ bk_memory t = Some (2 ^ 54)%Z /\
    build_dag w c t sols (bstate0 n0) = ROk (tt, s) /\ e ∈ dag_execs (dag_of c s) /\ e_tag e = Some "evaluation" /\ l_memory (e_limits e) = Some 0%Z.
Proof.
  assert (Hok : task_ok 10 (ex_task (TBatch CWhiteDiff) (Some (2 ^ 54))%Z) ex_sols) by (apply ex_ok; set_solver).
  destruct (built (TBatch CWhiteDiff) (Some (2 ^ 54))%Z) as [[[] s]| |] eqn:E; [|by vm_compute in E..].
  assert (Hm : memories_of (built (TBatch CWhiteDiff) (Some (2 ^ 54))%Z) = replicate 6 (Some 0%Z)) by (vm_compute; reflexivity).
  rewrite E in Hm. cbn [memories_of] in Hm.
  assert (Hh : Some 0%Z ∈ map (fun e => l_memory (e_limits e)) (filter (fun e => e_tag e = Some "evaluation") (execs_of s))) by (rewrite Hm; by left).
  apply elem_of_list_In, in_map_iff in Hh as (e & He & Hin). apply elem_of_list_In, elem_of_list_filter in Hin as [Ht Hin].
  exists 10%positive, ex_world, ex_config, (ex_task (TBatch CWhiteDiff) (Some (2 ^ 54))%Z), ex_sols, s, e.
  split; [exact Hok|]. split; [reflexivity|]. split; [exact E|]. split; [exact Hin|]. split; [exact Ht|exact He].
Qed.
Print Assumptions C67_memory_refuted.
(** and a subtask with a testcase that is not in the task is a panic. *)
Theorem C67_missing_testcase_refuted : exists n0 w c t sols, build_dag w c t sols (bstate0 n0) = RPanic.
Proof.
  exists 1%positive, ex_world, ex_config, (BTask "" TNone None None None None [BSubtask 0 None VAssume [0] [0]] ∅), []. vm_compute. reflexivity.
Qed.
