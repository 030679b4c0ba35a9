(** * BadCaseProps: property C73, the batches of the tool that looks for a bad case *)
From Verif Require Import BuildModel BuildSpec CheckDagSpec BuildProofs BuildProofs2 BuildProofs3 BuildProofs4 BuildProofs5 BuildProofs6 BuildProofs7 BuildProofs8 BuildProps
  BadCaseModel BadCaseSpec BadCaseProofs BadCaseProofs2 BadCaseProofs3 BadCaseProofs4 BadCaseProofs5.
From Coq Require Import Ascii String.
From stdpp Require Import base list.

(** ** The task of a batch *)
(** The testcases of a batch: the generator of the task with the arguments of the user and a seed. *)
Theorem C73_batch : forall t validator vals ord user size index dir seed t' b,
  (forall l, ord l ≡ₚ l) -> vals ≡ₚ (map_to_list (bk_testcases t)).*2 -> in_range size index -> dir <> "" ->
  patch_task t validator vals ord user size index dir seed = ROk (t', b) -> batch_task t validator user size index dir seed t' b.
Proof. exact patch_task_ok. Qed.
Print Assumptions C73_batch.

(** There is a batch if and only if some testcase of the task has a generator. *)
Theorem C73_template : forall t validator vals ord user size index dir seed, vals ≡ₚ (map_to_list (bk_testcases t)).*2 ->
  ((exists tb, patch_task t validator vals ord user size index dir seed = ROk tb) <->
   exists tc gen a out, bk_testcases t !! tc = Some (BTestcase (ICustom gen a) out)).
Proof.
  intros t validator vals ord user size index dir seed Hv. unfold patch_task. destruct (find_template vals) as [[gen out]|] eqn:F.
  - split; [intros _|intros _; by eexists]. destruct (find_template_spec _ _ _ F) as [a Ha]. rewrite Hv in Ha.
    apply elem_of_list_fmap in Ha as ([tc bt] & E & Ha). cbn in E. subst bt. apply elem_of_map_to_list in Ha. by exists tc, gen, a, out.
  - split; [by intros [? ?]|]. intros (tc & gen & a & out & H). destruct (find_template_none _ F gen a out). rewrite Hv. apply elem_of_list_fmap.
    exists (tc, BTestcase (ICustom gen a) out). split; [done|]. by apply elem_of_map_to_list.
Qed.
Print Assumptions C73_template.

(** The number of a testcase says which batch it belongs to. *)
Theorem C73_batches_disjoint : forall t v user size dir seed1 seed2 i j t1 t2 b1 b2 tc,
  batch_task t v user size i dir seed1 t1 b1 -> batch_task t v user size j dir seed2 t2 b2 -> is_Some (b1 !! tc) -> is_Some (b2 !! tc) -> i = j.
Proof.
  intros t v user size dir seed1 seed2 i j t1 t2 b1 b2 tc [_ H1 _ _] [_ H2 _ _] E1 E2.
  destruct (H1 tc (or_introl E1)) as (x & Hx & ->). destruct (H2 (i * size + x) (or_introl E2)) as (y & Hy & E). nia.
Qed.
Print Assumptions C73_batches_disjoint.

(** ** The DAG of a batch *)
Lemma batch_sources t v user size index dir seed t' b sols : batch_task t v user size index dir seed t' b ->
  (forall x, x ∈ validator_sources v -> x ∈ task_sources t sols) -> forall x, x ∈ task_sources t' sols -> x ∈ task_sources t sols.
Proof.
  intros [Ht Ho (sub & Hsub & _ & Hval & _ & _) (_ & Hty & _)] Hv x. unfold task_sources. rewrite !elem_of_app. intros [H|[H|[H|H]]].
  - left. by rewrite <-Hty.
  - right. by left.
  - rewrite Hsub in H. cbn in H. rewrite app_nil_r, Hval in H. apply Hv in H. unfold task_sources in H. by rewrite !elem_of_app in H.
  - right. right. right. apply elem_of_list_bind in H as (bt & H & Hb). apply elem_of_list_fmap in Hb as ([tc bt'] & E & Hb). cbn in E. subst bt'.
    apply elem_of_map_to_list in Hb. destruct Ht as (gen & a & out & tc0 & H0 & Ht). destruct (Ho tc) as (i & Hi & ->); [right; by exists bt|].
    destruct (Ht i Hi) as (d & _ & _ & Hd). rewrite Hd in Hb. injection Hb as <-. apply elem_of_list_bind.
    exists (BTestcase (ICustom gen a) out). split; [exact H|]. apply elem_of_list_fmap. exists (tc0, BTestcase (ICustom gen a) out). split; [done|]. by apply elem_of_map_to_list.
Qed.
Lemma batch_task_ok n0 t v user size index dir seed t' b sols : task_ok n0 t sols -> (forall x, x ∈ validator_sources v -> x ∈ task_sources t sols) ->
  batch_task t v user size index dir seed t' b -> task_ok n0 t' sols.
Proof.
  intros [h1 h2 h3 _ _] Hv HB. pose proof (batch_sources _ _ _ _ _ _ _ _ _ _ HB Hv) as HS. split.
  - intros s1 s2 H1 H2. by apply h1; apply HS.
  - intros s gf gd Hs. apply h2. by apply HS.
  - intros s1 s2 gf gd1 gd2 H1 H2. by apply h3; apply HS.
  - destruct HB as [Ht _ (sub & Hsub & _ & _ & Hown & _) _]. rewrite Hsub. intros sub' tc ->%elem_of_list_singleton. rewrite Hown, elem_of_seq. intros H.
    destruct Ht as (gen & a & out & tc0 & _ & Ht). destruct (Ht (tc - index * size)) as (d & _ & _ & Hb); [lia|].
    replace tc with (index * size + (tc - index * size)) by lia. by eexists.
  - destruct HB as [_ _ (sub & Hsub & _ & _ & _ & Heq) _]. rewrite Hsub. intros sub' tc ->%elem_of_list_singleton. rewrite Heq. intros H. exists sub. split; [by left|done].
Qed.

(** A batch that is built and accepted. *)
Record started (n0 : positive) (w : world) (c : build_config) (nm : string -> string) (t : btask) (v : input_validator) (user : list string)
    (size index : nat) (dir : string) (seed : nat -> nat) (sol : source) (t' : btask) (b : batch) (s : bstate) (p : patched) : Prop := {
  st_task : task_ok n0 t [sol];
  st_validator : forall x, x ∈ validator_sources v -> x ∈ task_sources t [sol];
  st_path : bk_path t <> "";
  st_dir : dir <> "";
  st_range : in_range size index;
  st_write : cfg_dry_run (bc_dag c) = false;
  st_batch : exists vals ord, (forall l, ord l ≡ₚ l) /\ vals ≡ₚ (map_to_list (bk_testcases t)).*2 /\
    patch_task t v vals ord user size index dir seed = ROk (t', b);
  st_build : build_dag w c t' [sol] (bstate0 n0) = ROk (tt, s);
  st_patch : patch_dag nm c t' size b s = ROk p
}.
Lemma started_facts n0 w c nm t v user size index dir seed sol t' b s p : started n0 w c nm t v user size index dir seed sol t' b s p ->
  batch_task t v user size index dir seed t' b /\ task_ok n0 t' [sol] /\ bk_path t' <> "" /\
  (forall sub tc, sub ∈ bk_subtasks t' -> tc ∈ bs_owned sub -> fits_u32 tc = true).
Proof.
  intros [h1 h2 h3 h4 h5 h6 (vals & ord & h7 & h8 & h9) h10 h11]. assert (HB : batch_task t v user size index dir seed t' b) by by eapply patch_task_ok.
  split; [done|]. split; [by eapply batch_task_ok|]. split; [|by eapply owned_fits]. destruct HB as [_ _ _ (E & _)]. by rewrite E.
Qed.

(** The input and the correct output of every testcase of the batch go where the tool looks for them, even if the program
    that makes them fails. *)
Theorem C73_files : forall n0 w c nm t v user size index dir seed sol t' b s p,
  started n0 w c nm t v user size index dir seed sol t' b s p -> forall tc d, b !! tc = Some d ->
  exists gen out fi val fc,
    input_ok n0 w c t' s (ICustom gen (cd_args d)) 0 tc fi /\ output_ok n0 w c t' s out 0 tc fi val fc /\
    aget fi (pd_written p) = Some (WriteTo (cd_input d) false true) /\ aget fc (pd_written p) = Some (WriteTo (cd_correct d) false true).
Proof.
  intros n0 w c nm t v user size index dir seed sol t' b s p H tc d Hd. destruct (started_facts _ _ _ _ _ _ _ _ _ _ _ _ _ _ _ _ H) as (HB & HT & Hp & Hf).
  destruct H as [h1 h2 h3 h4 h5 h6 h7 h10 h11]. destruct (batch_owned _ _ _ _ _ _ _ _ _ HB tc) as (sub & Hs & Hid & Ht); [by exists d|].
  destruct (case_files n0 w c t' [sol] s b nm size p HT h10 Hp Hf h11 h6 sub tc Hs Ht) as (bt & fi & val & fc & d' & Hbt & Hd' & Hi & Ho & Hwi & Hwo).
  rewrite Hd in Hd'. injection Hd' as <-. destruct HB as [(gen & a & out & tc0 & _ & HB) Ho' _ _]. destruct (Ho' tc) as (i & Hi' & ->); [left; by exists d|].
  destruct (HB i Hi') as (d' & E1 & _ & E2). rewrite Hd in E1. injection E1 as <-. rewrite Hbt in E2. injection E2 as ->. rewrite Hid in Hi, Ho.
  by exists gen, out, fi, val, fc.
Qed.
Print Assumptions C73_files.

(** What the solution prints on a testcase goes where the tool looks for it. *)
Theorem C73_outputs : forall n0 w c nm t v user size index dir seed sol t' b s p,
  started n0 w c nm t v user size index dir seed sol t' b s p -> forall st tc x i n e f,
  has_role c s (REvaluation st tc x i n) e -> e_stdout e = Some f ->
  exists d, b !! tc = Some d /\ aget f (pd_written p) = Some (WriteTo (cd_output d) false true).
Proof.
  intros n0 w c nm t v user size index dir seed sol t' b s p H. destruct (started_facts _ _ _ _ _ _ _ _ _ _ _ _ _ _ _ _ H) as (HB & HT & Hp & Hf).
  destruct H as [h1 h2 h3 h4 h5 h6 h7 h10 h11]. intros st tc x i n e f Hr Hst. by apply (evaluation_file n0 w c t' [sol] s b nm size p HT h10 Hf h11 h6 st tc x i n e f).
Qed.
Print Assumptions C73_outputs.

(** Nothing is written among the input and output files of the task. *)
Theorem C73_destinations : forall n0 w c nm t v user size index dir seed sol t' b s p,
  started n0 w c nm t v user size index dir seed sol t' b s p -> forall f x, (f, x) ∈ pd_written p ->
  (forall d, inside (bk_path t) d (wt_dest x) -> d <> "input" /\ d <> "output") \/
  exists i, i < size /\ (exists name, wt_dest x = dir +:+ "/testcase-" +:+ pretty (seed i) +:+ "/" +:+ name).
Proof.
  intros n0 w c nm t v user size index dir seed sol t' b s p H. destruct (started_facts _ _ _ _ _ _ _ _ _ _ _ _ _ _ _ _ H) as (HB & HT & Hp & Hf).
  destruct H as [h1 h2 h3 h4 h5 h6 h7 h10 h11]. intros f x Hx. destruct (destinations c t' s b nm size p h11 h6 f x Hx) as [(e & _ & _ & Hd)|(tc & d & Hd & Hw)].
  - left. destruct HB as [_ _ _ (E & _)]. by rewrite <-E.
  - right. destruct HB as [(gen & a & out & tc0 & _ & HB) Ho' _ _]. destruct (Ho' tc) as (i & Hi & ->); [left; by exists d|].
    destruct (HB i Hi) as (d' & E1 & (_ & _ & Ei & Eo & Ec) & _). rewrite Hd in E1. injection E1 as <-. exists i. split; [done|].
    destruct Hw as [-> | [-> | ->]]; [exists "input.txt"|exists "correct_output.txt"|exists "output.txt"]; done.
Qed.
Print Assumptions C73_destinations.

(** The executions are those of the task; only the priorities of the solution and of the checker change. *)
Theorem C73_executions : forall n0 w c nm t v user size index dir seed sol t' b s p,
  started n0 w c nm t v user size index dir seed sol t' b s p -> pd_groups p = map urgent_group (b_groups s).
Proof.
  intros n0 w c nm t v user size index dir seed sol t' b s p H. destruct H as [h1 h2 h3 h4 h5 h6 h7 h10 h11].
  destruct (patched_parts c t' s b nm size p h11 h6) as (ws & fss & _ & E & _). exact E.
Qed.
Print Assumptions C73_executions.

(** A batch task is accepted if its executables are not written among its input and output files. *)
Theorem C73_accepted : forall n0 w c nm t v vals ord user size index dir seed sol t' b s ck,
  task_ok n0 t [sol] -> (forall x, x ∈ validator_sources v -> x ∈ task_sources t [sol]) -> bk_path t <> "" -> dir <> "" -> in_range size index ->
  (forall l, ord l ≡ₚ l) -> vals ≡ₚ (map_to_list (bk_testcases t)).*2 -> bk_type t = TBatch ck ->
  patch_task t v vals ord user size index dir seed = ROk (t', b) -> build_dag w c t' [sol] (bstate0 n0) = ROk (tt, s) ->
  exes_inside (bk_path t) s -> exists p, patch_dag nm c t' size b s = ROk p.
Proof.
  intros n0 w c nm t v vals ord user size index dir seed sol t' b s ck h1 h2 h3 h4 h5 h6 h7 h8 h9 h10 h11.
  assert (HB : batch_task t v user size index dir seed t' b) by by eapply patch_task_ok. pose proof (batch_task_ok _ _ _ _ _ _ _ _ _ _ _ h1 h2 HB) as HT.
  assert (Hsame := HB). destruct Hsame as [_ _ _ (E1 & E2 & _)].
  eapply (accept n0 w c t t' v user size index dir seed b sol s nm h5 HB HT h10 ck); by rewrite ?E1, ?E2.
Qed.
Print Assumptions C73_accepted.

(** What does not hold: *)
(** a communication task with more than one process is refused, *)
Theorem C73_communication_refuted : forall n0 w c nm t v vals ord user size index dir seed sol t' b s m n io,
  task_ok n0 t [sol] -> (forall x, x ∈ validator_sources v -> x ∈ task_sources t [sol]) -> dir <> "" -> in_range size index ->
  (forall l, ord l ≡ₚ l) -> vals ≡ₚ (map_to_list (bk_testcases t)).*2 -> bk_type t = TCommunication m n io -> n <> 1 -> size <> 0 ->
  patch_task t v vals ord user size index dir seed = ROk (t', b) -> build_dag w c t' [sol] (bstate0 n0) = ROk (tt, s) ->
  forall p, patch_dag nm c t' size b s <> ROk p.
Proof.
  intros n0 w c nm t v vals ord user size index dir seed sol t' b s m n io h1 h2 h4 h5 h6 h7 h8 h9 h10 h11 h12.
  assert (HB : batch_task t v user size index dir seed t' b) by by eapply patch_task_ok. pose proof (batch_task_ok _ _ _ _ _ _ _ _ _ _ _ h1 h2 HB) as HT.
  assert (Hsame := HB). destruct Hsame as [_ _ _ (E1 & E2 & _)].
  apply (refuse n0 w c t t' v user size index dir seed b sol s nm HB HT h12 h10). rewrite E2, h8. cbn. lia.
Qed.
Print Assumptions C73_communication_refuted.
(** and two testcases that get the same seed get the same files. *)
Theorem C73_same_seed_refuted : exists dir user seed size index i j, i < size /\ j < size /\ i <> j /\ in_range size index /\
  exists d1 d2, case_ok dir user (seed i) d1 /\ case_ok dir user (seed j) d2 /\ cd_input d1 = cd_input d2.
Proof.
  exists "/tmp", ["{}"], (fun _ => 7), 2, 0, 0, 1. split; [lia|]. split; [lia|]. split; [lia|]. split; [unfold in_range; lia|].
  exists (case_for "/tmp" ["{}"] 7), (case_for "/tmp" ["{}"] 7). split; [by apply case_for_ok|]. split; [by apply case_for_ok|done].
Qed.
Print Assumptions C73_same_seed_refuted.

(** ** A batch *)
Definition ex_user := ["10"; "{}"; "{}x"].
Definition ex_seed (i : nat) := 1000 + i.
Definition ex_stdout_task (ty : task_type) : btask := let t := ex_task ty None in
  BTask (bk_path t) (bk_type t) (bk_time t) (bk_memory t) None None (bk_subtasks t) (bk_testcases t).
Definition ex_validator := VCustom ex_val ["tm_validation_file"].
Definition ex_patched (ty : task_type) : res (btask * batch) :=
  patch_task (ex_stdout_task ty) ex_validator (map_to_list (bk_testcases (ex_stdout_task ty))).*2 (fun l => l) ex_user 3 2 "/tmp/x" ex_seed.
Definition ex_batch_dag (ty : task_type) : res patched :=
  match ex_patched ty with
  | ROk (t', b) => match build_dag ex_world ex_config t' [ex_sol] (bstate0 10) with
                   | ROk (_, s) => patch_dag (fun x => x) ex_config t' 3 b s | RErr => RErr | RPanic => RPanic end
  | RErr => RErr | RPanic => RPanic
  end.
Lemma ex_stdout_ok ty : type_sources ty ⊆ [ex_chk] -> task_ok 10 (ex_stdout_task ty) [ex_sol].
Proof.
  intros Hty. pose proof (ex_ok ty None Hty) as [h1 h2 h3 h4 h5].
  assert (HS : forall x, x ∈ task_sources (ex_stdout_task ty) [ex_sol] -> x ∈ task_sources (ex_task ty None) ex_sols).
  { intros x. unfold task_sources. cbn [ex_stdout_task bk_type bk_testcases bk_subtasks ex_task]. rewrite !elem_of_app. intros [H|[H|[H|H]]]; [tauto| |tauto|tauto].
    apply elem_of_list_singleton in H. subst x. right. left. right. by left. }
  split; [| | |exact h4|exact h5].
  - intros s1 s2 H1 H2. by apply h1; apply HS.
  - intros s gf gd H1. apply h2. by apply HS.
  - intros s1 s2 gf gd1 gd2 H1 H2. by apply h3; apply HS.
Qed.
Example C73_example : exists t' b s p, started 10 ex_world ex_config (fun x => x) (ex_stdout_task (TBatch CWhiteDiff)) ex_validator ex_user 3 2 "/tmp/x" ex_seed ex_sol t' b s p /\
  (forall d, b !! 7 = Some d -> cd_args d = ["10"; "1001"; "{}x"] /\ cd_input d = "/tmp/x/testcase-1001/input.txt") /\ length (pd_written p) = 13.
Proof.
  assert (Hp : match ex_patched (TBatch CWhiteDiff) with ROk (t', b) => match build_dag ex_world ex_config t' [ex_sol] (bstate0 10) with ROk (_, s) =>
     match patch_dag (fun x => x) ex_config t' 3 b s with ROk p => length (pd_written p) = 13 /\ match b !! 7 with Some d => cd_args d = ["10"; "1001"; "{}x"] /\ cd_input d = "/tmp/x/testcase-1001/input.txt" | None => False end | _ => False end | _ => False end | _ => False end)
    by (vm_compute; done).
  destruct (ex_patched (TBatch CWhiteDiff)) as [[t' b]| |] eqn:E1; [|done..].
  destruct (build_dag ex_world ex_config t' [ex_sol] (bstate0 10)) as [[[] s]| |] eqn:E2; [|done..].
  destruct (patch_dag (fun x => x) ex_config t' 3 b s) as [p| |] eqn:E3; [|done..]. exists t', b, s, p. split; [|split].
  - split; [by apply ex_stdout_ok; set_solver| |done|done|unfold in_range; lia|done| |exact E2|exact E3].
    + intros x. cbn. intros ->%elem_of_list_singleton. apply elem_of_list_further, elem_of_list_here.
    + eexists _, _. split; [|split; [|exact E1]]; done.
  - intros d Hd. destruct Hp as [_ Hp]. by rewrite Hd in Hp.
  - apply Hp.
Qed.
Example C73_example_communication : ex_batch_dag (TCommunication ex_chk 1 FifoIo) <> RErr /\ ex_batch_dag (TCommunication ex_chk 2 FifoIo) = RErr.
Proof. split; vm_compute; done. Qed.
