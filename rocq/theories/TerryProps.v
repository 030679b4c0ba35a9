(** * TerryProps: property C70, the DAG that is built for a Terry task *)
From Verif Require Import TerryModel BuildSpec TerrySpec CheckDagSpec CheckDagProps BuildProofs BuildProofs2 BuildProofs3 BuildProofs4 BuildProofs5 BuildProofs6 BuildProofs7 TerryProofs TerryProofs2.
From Coq Require Import Ascii String.
From stdpp Require Import base list relations.
Local Open Scope nat_scope.

Lemma terry_facts n0 w c conf t sols : terry_ok n0 t sols ->
  ok (terry_build w c conf t sols (bstate0 n0)) (fun _ s =>
    K n0 w c (t_src_at t sols) (t_grader_at t sols) (bstate0 n0) (terry_roles conf t sols) [] [] s /\
    (forall p, p ∈ sols -> sol_done n0 w c t conf s p)).
Proof.
  intros HT. apply (terry_build_ok n0 w c (t_src_at t sols) (t_grader_at t sols)).
  - by apply t_managers.
  - intros p Hp. by apply t_sols.
  - by intros i f ?.
  - apply Inv_start.
Qed.

(** C70. The construction does not panic. *)
Theorem C70_no_panic : forall n0 w c conf t sols, terry_ok n0 t sols -> terry_build w c conf t sols (bstate0 n0) <> RPanic.
Proof. intros n0 w c conf t sols HT E. pose proof (terry_facts n0 w c conf t sols HT) as H. by rewrite E in H. Qed.
Print Assumptions C70_no_panic.

(** It succeeds if the files of the task are there. *)
Theorem C70_total : forall n0 w c conf t sols, terry_ok n0 t sols -> terry_there w t sols ->
  exists s, terry_build w c conf t sols (bstate0 n0) = ROk (tt, s).
Proof.
  intros n0 w c conf t sols HT HF. destruct (decide (sols = [])) as [->|Hne]; [by eexists|].
  pose proof (C70_no_panic n0 w c conf t sols HT) as Hp. pose proof (fine_terry w c conf t sols Hne (bstate0 n0)) as H.
  destruct (terry_build w c conf t sols (bstate0 n0)) as [[[] s]| |]; [by exists s| |done]. destruct H; [by intros i f|done].
Qed.
Print Assumptions C70_total.

(** The validation of the DAG accepts it. *)
Theorem C70_accepted : forall n0 w c conf t sols s, terry_ok n0 t sols -> terry_build w c conf t sols (bstate0 n0) = ROk (tt, s) ->
  forall ord, (forall l, ord l ≡ₚ l) -> check_dag ord (dag_of c s) (watch_of s) = Done tt.
Proof.
  intros n0 w c conf t sols s HT E ord Hord. pose proof (terry_facts n0 w c conf t sols HT) as H. rewrite E in H. destruct H as [HK _].
  destruct (groups_wf n0 c s (K_inv _ _ _ _ _ _ _ _ _ _ HK)) as (H1 & H2 & H3). by apply C02_complete_and_total.
Qed.
Print Assumptions C70_accepted.

(** Every execution of the DAG is bound to exactly one message; without the compilations, these are the messages
    of the solutions, in this order: one generation, one validation if there is a validator, one solution, one checker. *)
Theorem C70_roles : forall n0 w c conf t sols s, terry_ok n0 t sols -> terry_build w c conf t sols (bstate0 n0) = ROk (tt, s) ->
  (b_roles s).*1 ≡ₚ map e_uuid (dag_execs (dag_of c s)) /\ NoDup (b_roles s).*1 /\
  filter (fun r => comp_role r = false) (b_roles s).*2 = terry_roles conf t sols.
Proof.
  intros n0 w c conf t sols s HT E. pose proof (terry_facts n0 w c conf t sols HT) as H. rewrite E in H. destruct H as [HK _].
  destruct (groups_wf n0 c s (K_inv _ _ _ _ _ _ _ _ _ _ HK)) as (_ & H2 & _).
  destruct (terry_balanced w c n0 conf t sols s E) as [H1 _]. split; [exact H1|]. split; [rewrite H1; apply (wf_execs _ H2)|].
  destruct HK as (_ & _ & HR). exact HR.
Qed.
Print Assumptions C70_roles.

(** The compilations: each source file of the task that is compiled, once; the managers and the official solution too,
    however many solutions there are. *)
Theorem C70_compile_once : forall n0 w c conf t sols s, terry_ok n0 t sols -> terry_build w c conf t sols (bstate0 n0) = ROk (tt, s) ->
  exists srcs, NoDup (map sf_id srcs) /\
    (forall src, src ∈ srcs -> src ∈ terry_sources t sols /\ is_Some (sf_compile src)) /\
    filter (fun r => comp_role r = true) (b_roles s).*2 = map (fun src => RCompilation (sf_path src)) srcs.
Proof.
  intros n0 w c conf t sols s HT E. pose proof (terry_facts n0 w c conf t sols HT) as H. rewrite E in H. destruct H as [HK _].
  destruct HK as (_ & HL & _). destruct (l_comps _ _ _ _ _ _ _ HL) as (ids & Hnd & Hids & Hc).
  assert (HU : UI (terry_sources t sols) s).
  { destruct (decide (sols = [])) as [->|Hne].
    - cbn in E. injection E as <-. by intros i f.
    - pose proof (fine_terry w c conf t sols Hne (bstate0 n0)) as HF. rewrite E in HF. apply HF. by intros i f. }
  assert (Hat : forall i, i ∈ ids -> t_src_at t sols i ∈ terry_sources t sols /\ sf_id (t_src_at t sols i) = i /\ is_Some (sf_compile (t_src_at t sols i))).
  { intros i Hi. apply Hids in Hi as (_ & [f Hf] & Hcm). destruct (HU i f Hf) as (src & Hsrc & <-).
    destruct (t_src_at_ok n0 t sols HT src Hsrc) as [Hs _]. rewrite Hs in *. done. }
  exists (map (t_src_at t sols) ids). split; [|split].
  - rewrite map_map. rewrite (map_ext_in _ id), map_id; [done|]. intros i Hi. apply elem_of_list_In, Hat in Hi as (_ & ? & _). done.
  - intros src Hsrc. apply elem_of_list_In, in_map_iff in Hsrc as (i & <- & Hi). apply elem_of_list_In, Hat in Hi. tauto.
  - rewrite map_map. exact Hc.
Qed.
Print Assumptions C70_compile_once.

(** Every solution has an input of its own, generated with its seed; the input is validated before the solution reads it;
    the checker gets that input and what the solution printed; only the managers see the official solution. *)
Theorem C70_solution : forall n0 w c conf t sols s, terry_ok n0 t sols -> terry_build w c conf t sols (bstate0 n0) = ROk (tt, s) ->
  forall sol rnd, (sol, rnd) ∈ sols -> terry_solution_ok n0 w c t s sol (match conf with Some seed => seed | None => rnd end).
Proof.
  intros n0 w c conf t sols s HT E sol rnd Hp. pose proof (terry_facts n0 w c conf t sols HT) as H. rewrite E in H. destruct H as [_ H].
  destruct (H _ Hp) as (fi & val & fo & H1 & H2 & H3 & H4 & _). exists fi, val, fo. cbn [fst snd] in *.
  replace (match conf with Some seed => seed | None => rnd end) with (default rnd conf) by (by destruct conf). done.
Qed.
Print Assumptions C70_solution.

(** A dry run writes no file. *)
Theorem C70_dry_run : forall n0 w c conf t sols s, terry_build w c conf t sols (bstate0 n0) = ROk (tt, s) ->
  cfg_dry_run (bc_dag c) = true -> b_written s = [].
Proof. intros n0 w c conf t sols s E. by apply (terry_balanced w c n0 conf t sols s E). Qed.
Print Assumptions C70_dry_run.

(** ** A task *)
Definition tx_world : world :=
  World (fun p => false)
        (fun p => if bool_decide (p ∈ ["/t/managers/generator.cpp"; "/t/managers/testlib.h"; "/t/managers/validator.py"; "/t/managers/solution.cpp"; "/t/managers/checker.cpp"; "/t/solutions/a.cpp"; "/t/solutions/b.py"])
                  then Some (Pos.of_nat (String.length p)) else None).
Definition tx_cs (p b : string) : compile_spec := CompileSpec (System "g++") ["-O2"; "-o"; b] p b [Dependency "/t/managers/testlib.h" "testlib.h"] false [] [].
Definition tx_src (i : positive) (dir name : string) (comp : bool) (out : option string) : source :=
  Source i ("/t/" +:+ dir +:+ name) ("/t/" +:+ dir) (if comp then Some (tx_cs name "exe") else None) None out false
    (if comp then "exe" else name) (Local "exe") (fun a => a) [] allow_multiprocess.
Definition tx_task (val off : bool) : terry_task := TerryTask "/t"
  (tx_src 1 "managers/" "generator.cpp" true (Some "/t/managers/generator.linux.x86_64"))
  (if val then Some (tx_src 2 "managers/" "validator.py" false (Some "/t/managers/validator.linux.x86_64")) else None)
  (tx_src 3 "managers/" "checker.cpp" true (Some "/t/managers/checker.linux.x86_64"))
  (if off then Some (tx_src 4 "managers/" "solution.cpp" true (Some "/t/managers/solution.linux.x86_64")) else None).
Definition tx_sols : list (source * N) :=
  [(tx_src 5 "solutions/" "a.cpp" true (Some "/t/bin/solutions/a"), 17%N); (tx_src 6 "solutions/" "b.py" false (Some "/t/bin/solutions/b"), 42%N)].
Definition tx_config : build_config := BuildConfig (DagConfig false CacheEverything 0 0 0) true 77%positive.
Definition tx_names (r : res (unit * bstate)) : list (list string) :=
  match r with ROk (_, s) => map (fun e => (e_inputs e).*1) (filter (fun e => e_tag e = Some "generation") (execs_of s)) | _ => [] end.
Definition tx_roles (r : res (unit * bstate)) : list role := match r with ROk (_, s) => (b_roles s).*2 | _ => [] end.
Lemma tx_ok val off : terry_ok 10 (tx_task val off) tx_sols /\ terry_there tx_world (tx_task val off) tx_sols.
Proof.
  split; split.
  - intros s1 s2 H1 H2 E. destruct val, off; cbn in H1, H2;
      repeat (apply elem_of_cons in H1 as [->|H1]; [|]); try (by apply elem_of_nil in H1);
      repeat (apply elem_of_cons in H2 as [->|H2]; [|]); try (by apply elem_of_nil in H2); done || by vm_compute in E.
  - intros s gf gd H1 E. destruct val, off; cbn in H1; repeat (apply elem_of_cons in H1 as [->|H1]; [|]); try (by apply elem_of_nil in H1); by vm_compute in E.
  - intros s1 s2 gf gd1 gd2 H1 H2 E. destruct val, off; cbn in H1; repeat (apply elem_of_cons in H1 as [->|H1]; [|]); try (by apply elem_of_nil in H1); by vm_compute in E.
  - done.
  - intros s H1. destruct val, off; cbn in H1; repeat (apply elem_of_cons in H1 as [->|H1]; [|]); try (by apply elem_of_nil in H1);
    (split; [vm_compute; by eexists|]); (split; [|split]).
    all: try (intros d Hd; cbn in Hd; by apply elem_of_nil in Hd).
    all: try (intros gf gd E; by vm_compute in E).
    all: intros cs d E Hd; cbn in E; try discriminate; injection E as <-; cbn in Hd; apply elem_of_cons in Hd as [->|Hd]; [vm_compute; by eexists|by apply elem_of_nil in Hd].
  - intros o E. destruct off; [|done]. cbn in E. injection E as <-. eexists. split; [done|]. vm_compute. by eexists.
Qed.
Example C70_example :
  terry_ok 10 (tx_task true true) tx_sols /\ terry_there tx_world (tx_task true true) tx_sols /\
  let r := terry_build tx_world tx_config None (tx_task true true) tx_sols (bstate0 10) in
  tx_roles r = [RCompilation "/t/managers/generator.cpp"; RCompilation "/t/managers/solution.cpp";
    RTerryGeneration "/t/solutions/a.cpp" 17; RTerryValidation "/t/solutions/a.cpp"; RCompilation "/t/solutions/a.cpp"; RTerrySolution "/t/solutions/a.cpp";
    RCompilation "/t/managers/checker.cpp"; RTerryChecker "/t/solutions/a.cpp";
    RTerryGeneration "/t/solutions/b.py" 42; RTerryValidation "/t/solutions/b.py"; RTerrySolution "/t/solutions/b.py"; RTerryChecker "/t/solutions/b.py"].
Proof. split; [apply tx_ok|]. split; [apply tx_ok|]. vm_compute. reflexivity. Qed.

(** The executable of the official solution is in a sandbox under the name of the file it is written to
    (format/mod.rs:66-86: managers/solution.EXT), unless another file has this name. *)
Lemma C70_official_name : forall n0 w c t s others i, official_in n0 w c t s others i -> forall o p n,
  tt_official t = Some o -> sf_write_to o = Some p -> name_of p = Some n -> n ∉ others ->
  exists exe, exe_of n0 w c s o exe /\ aget n i = Some (ExecInput exe true).
Proof.
  intros n0 w c t s others i H o p n Ho Hp Hn Hin. destruct (H o Ho) as (p' & n' & exe & Hp' & Hn' & He & Hi).
  rewrite Hp in Hp'. injection Hp' as <-. rewrite Hn in Hn'. injection Hn' as <-. exists exe. auto.
Qed.
