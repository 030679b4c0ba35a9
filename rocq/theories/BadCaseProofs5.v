(** * BadCaseProofs5: when the tool accepts a task *)
From Verif Require Import BuildModel BuildSpec CheckDagSpec BuildProofs BuildProofs2 BuildProofs3 BuildProofs4 BuildProofs5 BuildProofs6 BuildProofs7 BuildProofs8 BuildProps
  BadCaseModel BadCaseSpec BadCaseProofs BadCaseProofs2 BadCaseProofs3 BadCaseProofs4.
From Coq Require Import Ascii String.
From stdpp Require Import base list.

Definition per_case (ty : task_type) : nat :=
  match ty with TBatch _ => 2 | TCommunication _ n _ => S n | TNone => 0 end.
Lemma count_none ty l : (forall r, r ∈ l -> tag_of ty r = "generation") -> length (filter (counted_role ty) l) = 0.
Proof.
  induction l as [|r l IH]; intros H; [done|]. rewrite filter_cons, decide_False; [apply IH; intros; apply H; by right|].
  unfold counted_role. rewrite (H r) by left. by intros [|].
Qed.
Lemma count_all ty l : (forall r, r ∈ l -> counted_role ty r) -> length (filter (counted_role ty) l) = length l.
Proof.
  induction l as [|r l IH]; intros H; [done|]. rewrite filter_cons, decide_True by (apply H; left). cbn. rewrite IH; [done|]. intros; apply H; by right.
Qed.
Lemma count_case t sol sub tc : is_Some (bk_testcases t !! tc) ->
  length (filter (counted_role (bk_type t)) (testcase_roles t [sol] sub tc)) = per_case (bk_type t).
Proof.
  intros [b Hb]. unfold testcase_roles. rewrite Hb, !filter_app, !app_length.
  rewrite (count_none _ (input_roles _ _ _)), (count_none _ (validation_roles _ _ _)), (count_none _ (output_roles _ _ _)).
  - cbn [mbind list_bind]. rewrite app_nil_r. unfold evaluation_roles, per_case. destruct (bk_type t) as [ck|m n io|] eqn:E; [| |done].
    + rewrite count_all; [done|]. intros r. rewrite !elem_of_cons. unfold counted_role. cbn. intros [->|[->|H]]; [by left|by right|by apply elem_of_nil in H].
    + rewrite count_all; [rewrite app_length, map_length, seq_length; cbn; lia|]. intros r. rewrite elem_of_app, elem_of_list_singleton. intros [H|H]; left; [|by subst].
      apply elem_of_list_fmap in H as (i & -> & _). done.
  - unfold output_roles. intros r. destruct (bt_output b); [set_solver|set_solver|]. rewrite elem_of_list_singleton. by intros ->.
  - unfold validation_roles. intros r. destruct (bs_validator sub); [set_solver|]. rewrite elem_of_list_singleton. by intros ->.
  - unfold input_roles. intros r. destruct (bt_input b); [set_solver|]. rewrite elem_of_list_singleton. by intros ->.
Qed.
Lemma count_batch t t' validator user size index dir seed b sol : batch_task t validator user size index dir seed t' b ->
  length (filter (counted_role (bk_type t')) (task_roles t' [sol])) = size * per_case (bk_type t').
Proof.
  intros [Ht Ho (sub & Hsub & _ & _ & Hown & Heq) _]. unfold task_roles. rewrite Hsub. cbn [mbind list_bind]. rewrite !app_nil_r, Heq.
  assert (E0 : filter (fun tc => tc ∉ bs_owned sub) (bs_owned sub) = []).
  { assert (H : forall l, (forall x, x ∈ l -> x ∈ bs_owned sub) -> filter (fun tc => tc ∉ bs_owned sub) l = []); [|by apply H].
    induction l as [|x l IH]; intros Hl; [done|]. rewrite filter_cons, decide_False; [apply IH; intros; apply Hl; by right|]. intros H; apply H, Hl. left. }
  rewrite E0. change ([] ≫= validation_roles (bs_validator sub) (bs_id sub)) with (@nil role). rewrite app_nil_r.
  assert (Hin : forall tc, tc ∈ bs_owned sub -> is_Some (bk_testcases t' !! tc)).
  { intros tc. rewrite Hown, elem_of_seq. intros H. destruct Ht as (gen & a & out & tc0 & _ & Ht). destruct (Ht (tc - index * size)) as (d & _ & _ & Hb); [lia|].
    replace tc with (index * size + (tc - index * size)) by lia. by eexists. }
  assert (Hl : length (bs_owned sub) = size) by (rewrite Hown; apply seq_length). rewrite <-Hl. clear Hl Hown Heq E0 Hsub.
  induction (bs_owned sub) as [|tc l IH]; [done|]. cbn [mbind list_bind]. rewrite filter_app, app_length, count_case by (apply Hin; left).
  cbn [length]. rewrite IH; [lia|]. intros; apply Hin; by right.
Qed.

Section accept.
Context (n0 : positive) (w : world) (c : build_config) (t t' : btask) (validator : input_validator) (user : list string) (size index : nat) (dir : string) (seed : nat -> nat)
  (b : batch) (sol : source) (s : bstate) (nm : string -> string).
Hypothesis HR : in_range size index.
Hypothesis HBT : batch_task t validator user size index dir seed t' b.
Hypothesis HT : task_ok n0 t' [sol].
Hypothesis HB : build_dag w c t' [sol] (bstate0 n0) = ROk (tt, s).

Lemma owned_in sub tc : sub ∈ bk_subtasks t' -> tc ∈ bs_owned sub -> exists i, i < size /\ tc = index * size + i.
Proof.
  destruct HBT as [_ _ (sub' & Hsub & _ & _ & Hown & _) _]. rewrite Hsub. intros ->%elem_of_list_singleton. rewrite Hown, elem_of_seq. intros H.
  exists (tc - index * size). lia.
Qed.
Lemma owned_fits sub tc : sub ∈ bk_subtasks t' -> tc ∈ bs_owned sub -> fits_u32 tc = true.
Proof. intros Hs Ht. destruct (owned_in sub tc Hs Ht) as (i & Hi & ->). by apply case_id_fits. Qed.
Lemma owned_batch sub tc : sub ∈ bk_subtasks t' -> tc ∈ bs_owned sub -> is_Some (b !! tc).
Proof.
  intros Hs Ht. destruct (owned_in sub tc Hs Ht) as (i & Hi & ->). destruct HBT as [(gen & a & out & tc0 & _ & H) _ _ _]. destruct (H i Hi) as (d & Hd & _). by exists d.
Qed.
Lemma batch_owned tc : is_Some (b !! tc) -> exists sub, sub ∈ bk_subtasks t' /\ bs_id sub = 0 /\ tc ∈ bs_owned sub.
Proof.
  intros H. destruct HBT as [_ Ho (sub & Hsub & Hid & _ & Hown & _) _]. destruct (Ho tc (or_introl H)) as (i & Hi & ->). exists sub.
  split; [rewrite Hsub; by left|]. split; [done|]. rewrite Hown, elem_of_seq. lia.
Qed.
Lemma counted_total : length (filter counted (execs_of s)) = size * per_case (bk_type t').
Proof. rewrite (count_roles n0 w c t' [sol] s HT HB). by eapply count_batch. Qed.

Lemma accept ck : bk_type t' = TBatch ck -> bk_path t' <> "" -> exes_inside (bk_path t') s -> exists p, patch_dag nm c t' size b s = ROk p.
Proof.
  intros Hty Hroot Hexe. unfold patch_dag. destruct (build_tags w c t' [sol] n0 s HB) as [Htags Hwr]. destruct (build_wf n0 w c t' [sol] s HT HB) as (_ & Hnd & _).
  destruct (redirects_total (bk_path t') b (b_written s)) as [ws ->].
  { intros [f [q x]] Hin. destruct x.
    - destruct (Hexe f q Hin) as (d & H1 & H2 & H3). eexists. by apply (redirect_exe _ _ _ _ _ d).
    - destruct (Hwr f q Hin) as (sub & tc & Hs & Ht & Hq). pose proof (owned_fits sub tc Hs Ht) as Hf. destruct (owned_batch sub tc Hs Ht) as [d Hd].
      destruct Hq as [-> | ->]; [rewrite redirect_input by done|rewrite redirect_output by done]; rewrite Hd; by eexists. }
  destruct (patch_groups_total nm (bk_type t') (b_roles s) b (b_groups s)) as [[[gs fs] n] E].
  { intros e He. apply patch_exec_total. intros Htag. destruct (Htags e He) as (r & Hr & Htr). rewrite (aget_role s _ _ Hnd Hr).
    assert (Hrr : exists st tc x i n, r = REvaluation st tc x i n).
    { rewrite Htag in Htr. injection Htr as Htr. rewrite Hty in Htr. destruct r; try done. by eexists _, _, _, _, _. }
    destruct Hrr as (st & tc & x & i & n & ->).
    assert (Hown : exists sub, sub ∈ bk_subtasks t' /\ tc ∈ bs_owned sub).
    { destruct (C67_roles n0 w c t' [sol] s HT HB) as (_ & _ & Hroles). apply (evaluation_owned t' [sol] st tc x i n). rewrite <-Hroles. apply elem_of_list_filter. split; [done|].
      apply elem_of_list_fmap. by exists (e_uuid e, REvaluation st tc x i n). }
    destruct Hown as (sub & Hs & Ht). exists tc. split; [|by apply (owned_batch sub)]. apply description_id; [by apply (owned_fits sub)|by rewrite Hty]. }
  rewrite E. apply patch_groups_spec in E as (_ & -> & _). rewrite decide_True; [by eexists|]. change (length (filter counted (execs_of s)) = size * 2).
  rewrite counted_total, Hty. done.
Qed.
Lemma refuse : size <> 0 -> per_case (bk_type t') <> 2 -> forall p, patch_dag nm c t' size b s <> ROk p.
Proof.
  intros Hs Hp p. unfold patch_dag. destruct (redirects _ _ _); [|done..]. destruct (patch_groups _ _ _ _ _) as [[[gs fs] n]| |] eqn:E; [|done..].
  apply patch_groups_spec in E as (_ & -> & _). rewrite decide_False; [done|]. change (length (filter counted (execs_of s)) <> size * 2). rewrite counted_total.
  intros H. apply Hp. nia.
Qed.
End accept.
