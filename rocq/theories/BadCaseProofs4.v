(** * BadCaseProofs4: the files of a patched DAG *)
From Verif Require Import BuildModel BuildSpec CheckDagSpec BuildProofs BuildProofs2 BuildProofs3 BuildProofs4 BuildProofs5 BuildProofs6 BuildProofs7 BuildProofs8 BuildProps
  BadCaseModel BadCaseSpec BadCaseProofs BadCaseProofs2 BadCaseProofs3.
From Coq Require Import Ascii String.
From stdpp Require Import base list.

(** One execution for each output *)
Lemma bind_nodup_same {A B} (f : A -> list B) l x y v : NoDup (l ≫= f) -> x ∈ l -> y ∈ l -> v ∈ f x -> v ∈ f y -> x = y.
Proof.
  induction l as [|a l IH]; cbn; [set_solver|]. intros Hnd Hx Hy Hvx Hvy. apply NoDup_app in Hnd as (H1 & H2 & H3).
  apply elem_of_cons in Hx as [->|Hx], Hy as [->|Hy]; [done| | |by apply IH].
  - destruct (H2 v); [done|]. apply elem_of_list_bind. by exists y.
  - destruct (H2 v); [done|]. apply elem_of_list_bind. by exists x.
Qed.
Lemma forall2_left {A B} (R : A -> B -> Prop) l k x : Forall2 R l k -> x ∈ l -> exists y, y ∈ k /\ R x y.
Proof. induction 1 as [|a b l k H _ IH]; [set_solver|]. intros [->|H']%elem_of_cons; [exists b; split; [by left|done]|]. destruct (IH H') as (y & ? & ?). exists y. split; [by right|done]. Qed.
Lemma forall2_right {A B} (R : A -> B -> Prop) l k y : Forall2 R l k -> y ∈ k -> exists x, x ∈ l /\ R x y.
Proof. induction 1 as [|a b l k H _ IH]; [set_solver|]. intros [->|H']%elem_of_cons; [exists a; split; [by left|done]|]. destruct (IH H') as (x & ? & ?). exists x. split; [by right|done]. Qed.
Lemma elem_of_mjoin {A} (x : A) (ls : list (list A)) : x ∈ mjoin ls <-> exists l, l ∈ ls /\ x ∈ l.
Proof. rewrite elem_of_list_join. naive_solver. Qed.
Lemma aget_ainsert {K W} `{EqDecision K} (k k' : K) (v : W) l : aget k (ainsert k' v l) = if decide (k = k') then Some v else aget k l.
Proof.
  induction l as [|[k1 v1] l IH]; cbn; [by repeat case_decide|]. destruct (decide (k' = k1)) as [->|H1]; cbn.
  - by repeat case_decide.
  - destruct (decide (k = k1)) as [->|H2]; [by rewrite decide_False|]. by rewrite IH.
Qed.
(** Files that are added to the list *)
Definition add_written (fs : list (file_uuid * string)) (ws : list (file_uuid * write_to)) : list (file_uuid * write_to) :=
  fold_left (fun ws fp => ainsert (fst fp) (WriteTo (snd fp) false true) ws) fs ws.
Lemma add_written_other fs ws f : (forall p, (f, p) ∉ fs) -> aget f (add_written fs ws) = aget f ws.
Proof.
  unfold add_written. revert ws. induction fs as [|[k q] fs IH]; intros ws H; cbn; [done|]. rewrite IH.
  - rewrite aget_ainsert, decide_False; [done|]. intros ->. apply (H q). by left.
  - intros p Hp. apply (H p). by right.
Qed.
Lemma add_written_in fs ws f p : (f, p) ∈ fs -> (forall q, (f, q) ∈ fs -> q = p) -> aget f (add_written fs ws) = Some (WriteTo p false true).
Proof.
  unfold add_written. revert ws. induction fs as [|[k q] fs IH]; intros ws Hin Hall; [by apply elem_of_nil in Hin|]. cbn.
  destruct (decide ((f, p) ∈ fs)) as [H|H]; [apply IH; [done|]; intros; apply Hall; by right|].
  apply elem_of_cons in Hin as [[= <- <-]|Hin]; [|done]. change (aget f (add_written fs (ainsert f (WriteTo p false true) ws)) = Some (WriteTo p false true)).
  rewrite add_written_other; [by rewrite aget_ainsert, decide_True|]. intros q Hq. rewrite (Hall q) in Hq by (by right). done.
Qed.
Lemma add_written_elem fs ws x : x ∈ add_written fs ws -> x ∈ ws \/ exists f p, (f, p) ∈ fs /\ x = (f, WriteTo p false true).
Proof.
  unfold add_written. revert ws. induction fs as [|[k q] fs IH]; intros ws H; cbn in H; [by left|]. destruct (IH _ H) as [Hx|(f & p & Hf & ->)].
  - apply ainsert_elem in Hx as [->|Hx]; [right|by left]. exists k, q. split; [by left|done].
  - right. exists f, p. split; [by right|done].
Qed.

Lemma evaluation_owned t sols st tc x i n : REvaluation st tc x i n ∈ task_roles t sols -> exists sub, sub ∈ bk_subtasks t /\ tc ∈ bs_owned sub.
Proof.
  unfold task_roles. rewrite elem_of_app. intros [H|H].
  - apply elem_of_list_bind in H as (sub & H & Hs). apply elem_of_list_bind in H as (tc' & H & Ht). exists sub. split; [done|].
    unfold testcase_roles in H. destruct (bk_testcases t !! tc') as [b|]; [|by apply elem_of_nil in H]. rewrite !elem_of_app in H. destruct H as [H|[H|[H|H]]].
    + unfold input_roles in H. destruct (bt_input b); set_solver.
    + unfold validation_roles in H. destruct (bs_validator sub); set_solver.
    + unfold output_roles in H. destruct (bt_output b); set_solver.
    + apply elem_of_list_bind in H as (sol & H & _). unfold evaluation_roles in H. destruct (bk_type t); [| |by apply elem_of_nil in H].
      * apply elem_of_cons in H as [[=]|H]; [by subst|]. apply elem_of_list_singleton in H. done.
      * apply elem_of_app in H as [H|H]; [|apply elem_of_list_singleton in H; done]. apply elem_of_list_fmap in H as (j & [=] & _). by subst.
  - apply elem_of_list_bind in H as (sub & H & Hs). apply elem_of_list_bind in H as (tc' & H & Ht). unfold validation_roles in H. destruct (bs_validator sub); set_solver.
Qed.

Section patched.
Context (n0 : positive) (w : world) (c : build_config) (t : btask) (sols : list source) (s : bstate) (b : batch) (nm : string -> string) (size : nat) (p : patched).
Hypothesis HT : task_ok n0 t sols.
Hypothesis HB : build_dag w c t sols (bstate0 n0) = ROk (tt, s).
Hypothesis Hroot : bk_path t <> "".
Hypothesis Hfits : forall sub tc, sub ∈ bk_subtasks t -> tc ∈ bs_owned sub -> fits_u32 tc = true.
Hypothesis HP : patch_dag nm c t size b s = ROk p.
Hypothesis Hdry : cfg_dry_run (bc_dag c) = false.

Lemma patched_parts : exists ws fss, redirects (bk_path t) b (b_written s) = ROk ws /\ pd_groups p = map urgent_group (b_groups s) /\
  pd_written p = add_written (mjoin fss) ws /\ Forall2 (exec_rel nm (bk_type t) (b_roles s) b) (execs_of s) fss /\ length (filter counted (execs_of s)) = size * 2.
Proof.
  unfold patch_dag in HP. destruct (redirects (bk_path t) b (b_written s)) as [ws| |] eqn:E1; [|done..].
  destruct (patch_groups nm (bk_type t) (b_roles s) b (b_groups s)) as [[[gs fs] n]| |] eqn:E2; [|done..].
  rewrite Hdry in HP. apply patch_groups_spec in E2 as (-> & -> & fss & HF & ->). destruct (decide _) as [Hn|]; [|done]. injection HP as <-.
  exists ws, fss. done.
Qed.
Lemma role_exec r e : has_role c s r e -> set_config (bc_dag c) e ∈ execs_of s /\ aget (e_uuid e) (b_roles s) = Some r /\ e_tag e = Some (tag_of (bk_type t) r).
Proof.
  intros [H1 (k & g & Hg & He)]. destruct (build_wf n0 w c t sols s HT HB) as (_ & Hnd & _).
  assert (Hin : set_config (bc_dag c) e ∈ execs_of s).
  { unfold execs_of. apply elem_of_list_bind. exists g. split; [done|]. apply elem_of_list_fmap. by exists (k, g). }
  split; [done|]. split; [by apply aget_role|]. destruct (build_tags w c t sols n0 s HB) as [Ht _]. destruct (Ht _ Hin) as (r' & Hr' & Htag).
  cbn in Hr', Htag. rewrite Htag. pose proof (aget_role s _ _ Hnd H1) as E1. pose proof (aget_role s _ _ Hnd Hr') as E2. rewrite E1 in E2. by injection E2 as ->.
Qed.
Lemma same_output_exec e1 e2 f : e1 ∈ execs_of s -> e2 ∈ execs_of s -> f ∈ outputs e1 -> f ∈ outputs e2 -> e1 = e2.
Proof.
  destruct (build_wf n0 w c t sols s HT HB) as (Hwf & _ & _). pose proof (wf_files _ Hwf) as Hf. apply NoDup_app in Hf as (Hf & _).
  intros. by apply (bind_nodup_same outputs (execs_of s) e1 e2 f).
Qed.
Lemma not_provided e f : e ∈ execs_of s -> f ∈ outputs e -> aget f (b_provided s) = None.
Proof.
  intros He Hf. destruct (build_wf n0 w c t sols s HT HB) as (Hwf & _ & _). pose proof (wf_files _ Hwf) as H. apply NoDup_app in H as (_ & H & _).
  specialize (H f). destruct (aget f (b_provided s)) as [v|] eqn:E; [|done]. destruct H; [apply elem_of_list_bind; by exists e|].
  change ((d_provided (dag_of c s)).*1) with ((b_provided s).*1). clear -E. induction (b_provided s) as [|[k x] l IH]; cbn in *; [done|].
  destruct (decide (f = k)) as [->|]; [by left|]. right. by apply IH.
Qed.
Lemma stdout_output e f : e_stdout e = Some f -> f ∈ outputs e.
Proof. intros E. unfold outputs. rewrite E. apply elem_of_app. by left; left. Qed.

(** Which files are added *)
Lemma added fss f q : Forall2 (exec_rel nm (bk_type t) (b_roles s) b) (execs_of s) fss -> (f, q) ∈ mjoin fss ->
  exists e tc d, e ∈ execs_of s /\ e_tag e = Some "evaluation" /\ e_stdout e = Some f /\ b !! tc = Some d /\ q = cd_output d /\
    id_of_description (match aget (e_uuid e) (b_roles s) with Some r => description nm (bk_type t) r | None => "" end) = ROk (Some tc).
Proof.
  intros HF H. apply elem_of_mjoin in H as (fs & Hfs & H). destruct (forall2_right _ _ _ _ HF Hfs) as (e & He & n & Hp).
  apply patch_exec_spec in Hp as (_ & _ & Hp & _). destruct (Hp f q H) as (H1 & H2 & tc & d & H3 & H4 & H5). exists e, tc, d. done.
Qed.
Lemma keeps fss ws f : Forall2 (exec_rel nm (bk_type t) (b_roles s) b) (execs_of s) fss ->
  (forall e, e ∈ execs_of s -> e_tag e = Some "evaluation" -> e_stdout e <> Some f) -> aget f (add_written (mjoin fss) ws) = aget f ws.
Proof. intros HF H. apply add_written_other. intros q Hq. destruct (added fss f q HF Hq) as (e & tc & d & H1 & H2 & H3 & _). by apply (H e). Qed.

(** The input and the official output of a testcase *)
Lemma case_files sub tc : sub ∈ bk_subtasks t -> tc ∈ bs_owned sub -> exists bt fi val fc d,
  bk_testcases t !! tc = Some bt /\ b !! tc = Some d /\ input_ok n0 w c t s (bt_input bt) (bs_id sub) tc fi /\
  output_ok n0 w c t s (bt_output bt) (bs_id sub) tc fi val fc /\
  aget fi (pd_written p) = Some (WriteTo (cd_input d) false true) /\ aget fc (pd_written p) = Some (WriteTo (cd_correct d) false true).
Proof.
  intros Hs Ht. destruct (C67_testcase n0 w c t sols s HT HB sub tc Hs Ht) as (fi & bt & val & fc & Hbt & Hin & _ & Hout & _).
  pose proof (Hfits sub tc Hs Ht) as Hf. destruct patched_parts as (ws & fss & HR & _ & -> & HF & _).
  assert (Hi : exists d, b !! tc = Some d /\ aget fi ws = Some (WriteTo (cd_input d) false true)).
  { destruct Hin as [Hc _]. specialize (Hc Hdry Hroot). rewrite <-input_name in Hc by done. destruct (aget_redirects _ _ _ _ _ _ HR Hc) as (x & Hx & Ha).
    rewrite redirect_input in Hx by done. destruct (b !! tc) as [d|]; [|done]. injection Hx as <-. by exists d. }
  assert (Ho : exists d, b !! tc = Some d /\ aget fc ws = Some (WriteTo (cd_correct d) false true)).
  { destruct Hout as [Hc _]. specialize (Hc Hdry Hroot). rewrite <-output_name in Hc by done. destruct (aget_redirects _ _ _ _ _ _ HR Hc) as (x & Hx & Ha).
    rewrite redirect_output in Hx by done. destruct (b !! tc) as [d|]; [|done]. injection Hx as <-. by exists d. }
  destruct Hi as (d & Hd & Hi). destruct Ho as (d' & Hd' & Ho). rewrite Hd in Hd'. injection Hd' as <-. exists bt, fi, val, fc, d.
  split; [done|]. split; [done|]. split; [done|]. split; [done|]. split.
  - rewrite keeps; [done|done|]. intros e He Htag Hst. destruct Hin as [_ Hin]. destruct (bt_input bt) as [q|src args].
    + destruct Hin as (_ & _ & H1 & H2). rewrite (not_provided e) in H1 by (done || by apply stdout_output). rewrite <-H1 in H2. by destruct H2.
    + destruct Hin as (e' & Hr & _ & _ & _ & Hst' & _). destruct (role_exec _ _ Hr) as (Hin' & _ & Htag').
      assert (E : e = set_config (bc_dag c) e') by (apply (same_output_exec _ _ fi); [done|done|by apply stdout_output|by apply stdout_output]).
      subst e. cbn in Htag. rewrite Htag in Htag'. done.
  - rewrite keeps; [done|done|]. intros e He Htag Hst. destruct Hout as [_ Hout]. destruct (bt_output bt) as [|q|src args].
    + destruct Hout as [H1 _]. rewrite (not_provided e) in H1 by (done || by apply stdout_output). done.
    + destruct Hout as (_ & _ & H1 & H2). rewrite (not_provided e) in H1 by (done || by apply stdout_output). rewrite <-H1 in H2. by destruct H2.
    + destruct Hout as (e' & Hr & _ & _ & _ & _ & Hio & _). destruct (role_exec _ _ Hr) as (Hin' & _ & Htag').
      assert (Hfc : fc ∈ outputs (set_config (bc_dag c) e')).
      { destruct Hio as (_ & _ & Hio). destruct (bk_outfile t) as [q|]; [|by apply stdout_output]. unfold outputs. cbn. rewrite Hio, !elem_of_app. right. right. by left. }
      assert (E : e = set_config (bc_dag c) e') by (apply (same_output_exec _ _ fc); [done|done|by apply stdout_output|done]).
      subst e. cbn in Htag. rewrite Htag in Htag'. done.
Qed.

Lemma description_id st tc x i n : fits_u32 tc = true -> (bk_type t <> TNone) ->
  id_of_description (description nm (bk_type t) (REvaluation st tc x i n)) = ROk (Some tc).
Proof.
  intros Hf Hn. unfold description. destruct (bk_type t) as [ck|m k io|]; [| |done].
  - change (" on testcase " +:+ pretty tc +:+ ", subtask " +:+ pretty st) with (" on " +:+ "testcase " +:+ pretty tc +:+ ", subtask " +:+ pretty st).
    rewrite <-!(app_str_assoc _ _ ("testcase " +:+ _)). rewrite <-!app_str_assoc. rewrite !app_str_assoc.
    rewrite <-(app_str_assoc "Evaluation of "). rewrite <-(app_str_assoc ("Evaluation of " +:+ nm x)). by apply id_of_text.
  - change (") on testcase " +:+ pretty tc +:+ ", subtask " +:+ pretty st) with (") on " +:+ "testcase " +:+ pretty tc +:+ ", subtask " +:+ pretty st).
    rewrite <-(app_str_assoc "Evaluation of "). rewrite <-(app_str_assoc ("Evaluation of " +:+ nm x)).
    rewrite <-(app_str_assoc (("Evaluation of " +:+ nm x) +:+ " (process ")).
    rewrite <-(app_str_assoc ((("Evaluation of " +:+ nm x) +:+ " (process ") +:+ pretty (S i))).
    rewrite <-(app_str_assoc (((("Evaluation of " +:+ nm x) +:+ " (process ") +:+ pretty (S i)) +:+ "/")).
    rewrite <-(app_str_assoc ((((("Evaluation of " +:+ nm x) +:+ " (process ") +:+ pretty (S i)) +:+ "/") +:+ pretty n)). by apply id_of_text.
Qed.

(** What a solution prints *)
Lemma evaluation_file st tc x i n e f : has_role c s (REvaluation st tc x i n) e -> e_stdout e = Some f ->
  exists d, b !! tc = Some d /\ aget f (pd_written p) = Some (WriteTo (cd_output d) false true).
Proof.
  intros Hr Hst. destruct (role_exec _ _ Hr) as (Hin & Hrole & Htag). destruct patched_parts as (ws & fss & HR & _ & -> & HF & _).
  destruct (forall2_left _ _ _ _ HF Hin) as (fs & Hfs & k & Hp). apply patch_exec_spec in Hp as (_ & _ & Hp1 & Hp2).
  destruct (Hp2 Htag f Hst) as [q ->]. destruct (Hp1 f q) as (_ & _ & tc' & d & Hd & Hb & ->); [by left|]. cbn in Hd. rewrite Hrole in Hd.
  assert (Hty : bk_type t <> TNone) by (intros E; rewrite E in Hd; done).
  assert (Hown : exists sub, sub ∈ bk_subtasks t /\ tc ∈ bs_owned sub).
  { destruct (C67_roles n0 w c t sols s HT HB) as (_ & _ & Hroles). apply (evaluation_owned t sols st tc x i n). rewrite <-Hroles. apply elem_of_list_filter. split; [done|].
    destruct Hr as [Hr _]. apply elem_of_list_fmap. by exists (e_uuid e, REvaluation st tc x i n). }
  destruct Hown as (sub & Hs & Ht). rewrite description_id in Hd by (by eauto || done). injection Hd as <-. exists d. split; [done|].
  apply add_written_in; [apply elem_of_mjoin; eexists; split; [exact Hfs|by left]|].
  intros q Hq. destruct (added fss f q HF Hq) as (e' & tc' & d' & H1 & H2 & H3 & H4 & -> & H5).
  assert (E : e' = set_config (bc_dag c) e) by (apply (same_output_exec _ _ f); [done|done|by apply stdout_output|by apply stdout_output]).
  subst e'. cbn in H5. rewrite Hrole, description_id in H5 by (by eauto || done). injection H5 as <-. rewrite H4 in Hb. by injection Hb as ->.
Qed.

(** Where the files go *)
Lemma destinations f x : (f, x) ∈ pd_written p ->
  (exists e, (f, (wt_dest x, e)) ∈ b_written s /\ wt_exe x = e /\ forall dir, inside (bk_path t) dir (wt_dest x) -> dir <> "input" /\ dir <> "output") \/
  (exists tc d, b !! tc = Some d /\ (wt_dest x = cd_input d \/ wt_dest x = cd_correct d \/ wt_dest x = cd_output d)).
Proof.
  destruct patched_parts as (ws & fss & HR & _ & -> & HF & _). intros [H|(f' & q & H & [= -> ->])]%add_written_elem.
  - apply redirects_spec in HR. destruct (forall2_right _ _ _ _ HR H) as ([k [q e]] & Hin & Hx). pose proof (redirect_key _ _ _ _ Hx) as E. cbn in E. subst k.
    unfold redirect in Hx. destruct (strip_components _ _) as [r|] eqn:Es; [|done]. destruct (_ && _) eqn:Eb.
    + injection Hx as <-. left. exists e. cbn. split; [done|]. split; [done|]. intros dir [rest Hrest]. apply strip_inv in Es. rewrite Es in Hrest. apply app_inv_head in Hrest. subst r.
      cbn in Eb. apply andb_true_iff in Eb as [E1 E2]. apply negb_true_iff, bool_decide_eq_false in E1, E2. split; congruence.
    + destruct (id_of_file r) as [[tc|]| |]; try done. destruct (b !! tc) as [d|] eqn:Ed; [|done]. injection Hx as <-. right. exists tc, d. split; [done|]. cbn.
      destruct (first_is "input" r); auto.
  - destruct (added fss f' q HF H) as (e & tc & d & _ & _ & _ & Hd & -> & _). right. exists tc, d. split; [done|]. cbn. auto.
Qed.
End patched.
