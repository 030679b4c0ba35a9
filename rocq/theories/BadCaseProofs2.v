(** * BadCaseProofs2: the tags of the executions of a DAG, and the files it writes *)
From Verif Require Import BuildModel BuildSpec BuildProofs BuildProofs7 BadCaseModel BadCaseSpec.
From Coq Require Import Ascii String.
From stdpp Require Import base list.

Section tags.
Context (w : world) (c : build_config) (t : btask) (ids : nat -> Prop).
(** [V]: the executions that are bound and not in the DAG yet *)
Definition G (V : list execution) (s : bstate) : Prop :=
  (forall e, e ∈ execs_of s ++ V -> exists r, (e_uuid e, r) ∈ b_roles s /\ e_tag e = Some (tag_of (bk_type t) r)) /\
  (forall f p, (f, (p, false)) ∈ b_written s -> exists tc, ids tc /\ (p = input_file_name (bk_path t) tc \/ p = output_file_name (bk_path t) tc)).
Definition ht {A} (V : list execution) (m : M A) (V' : A -> list execution) (Q : A -> Prop) : Prop :=
  forall s a s', G V s -> m s = ROk (a, s') -> G (V' a) s' /\ Q a.
Definition kp {A} (m : M A) (Q : A -> Prop) : Prop := forall V, ht V m (fun _ => V) Q.
Lemma ht_bind {A B} V (m : M A) V' Q (f : A -> M B) V'' Q' : ht V m V' Q -> (forall a, Q a -> ht (V' a) (f a) V'' Q') -> ht V (bind m f) V'' Q'.
Proof.
  intros Hm Hf s b s' Hs E. unfold bind in E. destruct (m s) as [[a s1]| |] eqn:Em; try done.
  destruct (Hm s a s1 Hs Em) as [H1 H2]. by apply (Hf a H2 s1 b s').
Qed.
Lemma kp_bind {A B} (m : M A) Q (f : A -> M B) Q' : kp m Q -> (forall a, Q a -> kp (f a) Q') -> kp (bind m f) Q'.
Proof. intros Hm Hf V. eapply ht_bind; [apply Hm|]. intros a Ha. by apply Hf. Qed.
Lemma kp_ret {A} (a : A) (Q : A -> Prop) : Q a -> kp (ret a) Q.
Proof. intros H V s x s' Hs [= <- <-]. done. Qed.
Lemma kp_weak {A} (m : M A) (Q Q' : A -> Prop) : kp m Q -> (forall a, Q a -> Q' a) -> kp m Q'.
Proof. intros Hm H V s a s' Hs E. destruct (Hm V s a s' Hs E). auto. Qed.
Lemma kp_err {A} Q : kp (@err A) Q. Proof. by intros V s a s'. Qed.
Lemma kp_panic {A} Q : kp (@panic A) Q. Proof. by intros V s a s'. Qed.
Definition any {A} : A -> Prop := fun _ => True.
Lemma kp_state {A} (m : M A) : (forall s a s', m s = ROk (a, s') -> b_roles s' = b_roles s /\ b_groups s' = b_groups s /\ b_written s' = b_written s) -> kp m any.
Proof.
  intros H V s a s' [H1 H2] E. destruct (H s a s' E) as (E1 & E2 & E3). split; [|done]. unfold G, execs_of in *. by rewrite E1, E2, E3.
Qed.
Lemma kp_new_id : kp new_id any. Proof. apply kp_state. by intros s a s' [= <- <-]. Qed.
Lemma kp_provide f p : kp (provide_file w f p) any.
Proof. apply kp_state. intros s a s'. unfold provide_file. destruct (w_key w p); [|done]. by intros [= <- <-]. Qed.
Lemma kp_provide_key f k : kp (provide_key f k) any. Proof. apply kp_state. by intros s a s' [= <- <-]. Qed.
Lemma kp_handle x : kp (exe_handle x) any. Proof. apply kp_state. by intros s a s' [= <- <-]. Qed.
Lemma kp_set x f : kp (set_exe x f) any. Proof. apply kp_state. by intros s a s' [= <- <-]. Qed.
Lemma ainsert_elem {K W} `{EqDecision K} (k : K) (v : W) l x : x ∈ ainsert k v l -> x = (k, v) \/ x ∈ l.
Proof.
  induction l as [|[k' v'] l IH]; cbn; [set_solver|]. case_decide; subst.
  - rewrite !elem_of_cons. tauto.
  - rewrite !elem_of_cons. intros [->|H']; [tauto|]. apply IH in H'. tauto.
Qed.
Lemma kp_write f p (x : bool) : (x = false -> exists tc, ids tc /\ (p = input_file_name (bk_path t) tc \/ p = output_file_name (bk_path t) tc)) ->
  kp (write_file_to c f p x) any.
Proof.
  intros Hx V s a s' [H1 H2]. unfold write_file_to. destruct (cfg_dry_run (bc_dag c)); intros [= <- <-]; (split; [|done]); [by split|].
  split; [done|]. cbn [b_written]. intros f' p' H. apply ainsert_elem in H as [[= -> -> <-]|H]; [by apply Hx|by apply (H2 f' p')].
Qed.
Lemma kp_write_exe f p : kp (write_file_to c f p true) any. Proof. by apply kp_write. Qed.

Lemma kp_mfold {A B} (f : B -> A -> M B) l b (Q : B -> Prop) : Q b -> (forall b a, Q b -> kp (f b a) Q) -> kp (mfold f l b) Q.
Proof.
  intros Hb H. revert b Hb. induction l as [|a l IH]; intros b Hb; cbn [mfold]; [by apply kp_ret|]. eapply kp_bind; [by apply H|]. intros; by apply IH.
Qed.
Lemma kp_mforeach {A} (f : A -> M unit) l : (forall a, a ∈ l -> kp (f a) any) -> kp (mforeach f l) any.
Proof.
  induction l as [|a l IH]; cbn [mforeach]; intros H; [by apply kp_ret|]. eapply kp_bind; [apply H; left|]. intros ? _. apply IH. intros; apply H; by right.
Qed.
(** The tag of what is being built *)
Definition tagged (o : option string) (e : execution) : Prop := e_tag e = o.
Definition tagged2 (o : option string) (fe : file_uuid * execution) : Prop := e_tag (snd fe) = o.
Lemma kp_provide_new p : kp (provide_new w p) any.
Proof. unfold provide_new. eapply kp_bind; [apply kp_new_id|]. intros f _. eapply kp_bind; [apply kp_provide|]. intros ? _. by apply kp_ret. Qed.
Lemma kp_stdout e : kp (stdout_of e) (tagged2 (e_tag e)).
Proof. unfold stdout_of. destruct (e_stdout e); [by apply kp_ret|]. eapply kp_bind; [apply kp_new_id|]. intros f _. by apply kp_ret. Qed.
Lemma kp_stderr e : kp (stderr_of e) (tagged2 (e_tag e)).
Proof. unfold stderr_of. destruct (e_stderr e); [by apply kp_ret|]. eapply kp_bind; [apply kp_new_id|]. intros f _. by apply kp_ret. Qed.
Lemma kp_cout n e : kp (capture_stdout n e) (tagged (e_tag e)).
Proof. unfold capture_stdout. eapply kp_bind; [apply kp_stdout|]. intros fe Hf. by apply kp_ret. Qed.
Lemma kp_cerr n e : kp (capture_stderr n e) (tagged (e_tag e)).
Proof. unfold capture_stderr. eapply kp_bind; [apply kp_stderr|]. intros fe Hf. by apply kp_ret. Qed.
Lemma kp_output p e : kp (output_of p e) (tagged2 (e_tag e)).
Proof. unfold output_of. eapply kp_bind; [apply kp_new_id|]. intros f _. destruct (aget p (e_outputs e)); by apply kp_ret. Qed.
Lemma kp_add_dep o e d : tagged o e -> kp (add_dep w e d) (tagged o).
Proof. intros H. unfold add_dep. eapply kp_bind; [apply kp_provide_new|]. intros f _. by apply kp_ret. Qed.
Lemma kp_arg o x e a : tagged o e -> kp (add_arg_file w x e a) (tagged o).
Proof.
  intros H. unfold add_arg_file. destruct (w_exists _ _); [|by apply kp_ret]. eapply kp_bind; [apply kp_provide_new|]. intros f _. by apply kp_ret.
Qed.
Lemma kp_compile x cs : kp (compile w c x cs) any.
Proof.
  unfold compile. eapply kp_bind; [apply kp_new_id|]. intros u _. eapply kp_bind; [apply (kp_mfold _ _ _ (tagged None)); [done|]; intros; by apply kp_add_dep|].
  intros e He. eapply kp_bind; [apply kp_provide_new|]. intros f _.
  apply (kp_bind _ any).
  { destruct (sf_grader x) as [[gf gd]|]; [|by apply kp_ret]. eapply kp_bind; [apply kp_provide|]. intros ? _. by apply kp_ret. }
  intros e' _. eapply kp_bind; [apply kp_output|]. intros fe _. apply (kp_bind _ any); [|intros ? _; by apply kp_ret].
  destruct (_ || _); [|by apply kp_ret]. destruct (sf_write_to x); [apply kp_write_exe|by apply kp_ret].
Qed.

Lemma ht_bind_role V e r : e_tag e = Some (tag_of (bk_type t) r) -> ht V (bind_role e r) (fun _ => e :: V) any.
Proof.
  intros He s a s' [H1 H2] [= <- <-]. split; [|done]. split; [|done]. cbn [b_roles]. unfold execs_of in *. cbn [b_groups].
  intros e'. rewrite elem_of_app, elem_of_cons. intros [H|[->|H]].
  - destruct (H1 e') as (r' & Hr & Ht); [by apply elem_of_app; left|]. exists r'. split; [by apply elem_of_app; left|done].
  - exists r. split; [by apply elem_of_app; right; left|done].
  - destruct (H1 e') as (r' & Hr & Ht); [by apply elem_of_app; right|]. exists r'. split; [by apply elem_of_app; left|done].
Qed.
Lemma execs_group s g es f : execs_of (BState (b_next s) (b_provided s) (b_groups s ++ [(g, Group g (map (set_config (bc_dag c)) es) f)]) (b_exes s)
             (b_written s) (b_roles s)) = execs_of s ++ map (set_config (bc_dag c)) es.
Proof. unfold execs_of. cbn [b_groups]. rewrite fmap_app, bind_app. f_equal. cbn. by rewrite app_nil_r. Qed.
Lemma ht_add_group V g es f : ht (es ++ V) (add_group c g es f) (fun _ => V) any.
Proof.
  intros s a s' [H1 H2] [= <- <-]. split; [|done]. split; [|done]. rewrite execs_group. cbn [b_roles].
  intros e. rewrite !elem_of_app. intros [[H|H]|H].
  - apply H1. by apply elem_of_app; left.
  - apply elem_of_list_fmap in H as (e' & -> & H). destruct (H1 e') as (r & Hr & Ht); [by rewrite !elem_of_app; tauto|]. by exists r.
  - apply H1. rewrite !elem_of_app. tauto.
Qed.
Lemma ht_add_execution V e : ht (e :: V) (add_execution c e) (fun _ => V) any.
Proof. unfold add_execution. eapply ht_bind; [apply kp_new_id|]. intros g _. apply (ht_add_group V g [e] []). Qed.
Lemma kp_bind_add {A} e r (k : M A) Q : e_tag e = Some (tag_of (bk_type t) r) -> kp k Q -> kp (bind_role e r ;! add_execution c e ;! k) Q.
Proof. intros He Hk V. eapply ht_bind; [by apply ht_bind_role|]. intros ? _. eapply ht_bind; [apply ht_add_execution|]. intros ? _. apply Hk. Qed.
Lemma kp_bind_add' e r : e_tag e = Some (tag_of (bk_type t) r) -> kp (bind_role e r ;! add_execution c e) any.
Proof. intros He V. eapply ht_bind; [by apply ht_bind_role|]. intros ? _. apply ht_add_execution. Qed.
Lemma kp_add_bind e x f r : e_tag e = Some (tag_of (bk_type t) r) -> kp (add_execution c e ;! set_exe x f ;! bind_role e r) any.
Proof.
  intros He V s a s' [H1 H2]. unfold add_execution, bind, new_id, add_group, set_exe, bind_role. intros [= <- <-]. split; [|done]. split; [|done].
  unfold execs_of in *. cbn [b_roles b_groups]. rewrite !fmap_app, bind_app. cbn. intros e'. rewrite !elem_of_app, elem_of_list_singleton.
  intros [[H|H]|H].
  - destruct (H1 e') as (r' & Hr & Ht); [by apply elem_of_app; left|]. exists r'. split; [by apply elem_of_app; left|done].
  - subst e'. exists r. split; [apply elem_of_app; right; by left|done].
  - destruct (H1 e') as (r' & Hr & Ht); [by apply elem_of_app; right|]. exists r'. split; [by apply elem_of_app; left|done].
Qed.
Lemma kp_prepare x : kp (prepare w c x) any.
Proof.
  unfold prepare. eapply kp_bind; [apply kp_handle|]. intros [f|] _; [by apply kp_ret|]. destruct (sf_compile x) as [cs|].
  - eapply kp_bind; [apply kp_compile|]. intros ef _. eapply kp_bind; [apply kp_cout|]. intros e He. eapply kp_bind; [apply kp_cerr|]. intros e' He'.
    apply kp_add_bind. cbn. unfold tagged in *. rewrite He', He. done.
  - eapply kp_bind; [apply kp_new_id|]. intros f _. apply (kp_bind _ any).
    { destruct (_ || _); [|by apply kp_ret]. destruct (sf_write_to x); [apply kp_write_exe|by apply kp_ret]. }
    intros ? _. eapply kp_bind; [apply kp_set|]. intros ? _. apply kp_provide.
Qed.
Lemma kp_execute x args : kp (execute w c x args) (tagged None).
Proof.
  unfold execute. eapply kp_bind; [apply kp_prepare|]. intros ? _. eapply kp_bind; [apply kp_new_id|]. intros u _.
  eapply kp_bind; [apply (kp_mfold _ _ _ (tagged None)); [done|]; intros; by apply kp_arg|]. intros e He. eapply kp_bind; [apply kp_handle|]. intros [f|] _; [|apply kp_panic].
  eapply kp_bind; [apply (kp_mfold _ _ _ (tagged None)); [done|]; intros; by apply kp_add_dep|]. intros e' He'. apply (kp_bind _ (tagged None)).
  { destruct (sf_grader x) as [[gf gd]|]; [|by apply kp_ret]. destruct (sf_compile x); [by apply kp_ret|]. eapply kp_bind; [apply kp_provide|]. intros ? _. by apply kp_ret. }
  intros e2 H2. by apply kp_ret.
Qed.
Lemma kp_io fi val e : kp (bind_exec_io t fi val e) (tagged2 (e_tag e)).
Proof.
  unfold bind_exec_io.
  set (e1 := match bk_infile t with None => set_stdin fi e | Some p => add_input fi p false e end).
  set (e2 := match val with Some f => add_input f "wait_for_validation" false e1 | None => e1 end).
  assert (E : e_tag e2 = e_tag e) by (subst e2 e1; by destruct val, (bk_infile t)). rewrite <-E. destruct (bk_outfile t); [apply kp_output|apply kp_stdout].
Qed.
Lemma kp_generate g tc : kp (generate_input w c g tc) (fun fe => forall e, snd fe = Some e -> e_tag e = Some "generation").
Proof.
  unfold generate_input. destruct g as [p|x args].
  - destruct (w_exists w p); [|apply kp_err]. eapply kp_bind; [apply kp_provide_new|]. intros f _. by apply kp_ret.
  - eapply kp_bind; [apply kp_execute|]. intros e _. eapply kp_bind; [apply kp_stdout|]. intros fe Hf. apply kp_ret. cbn. intros e' [= <-]. exact Hf.
Qed.
Lemma kp_input g st tc : ids tc -> kp (bind_input w c t g st tc) any.
Proof.
  intros Hi. unfold bind_input. eapply kp_bind; [apply kp_generate|]. intros fe Hf. eapply kp_bind; [apply kp_write; intros _; exists tc; tauto|]. intros ? _.
  cbv beta in Hf. destruct (snd fe) as [e|]; [|by apply kp_ret]. eapply kp_bind; [apply kp_cerr|]. intros e' He'. apply kp_bind_add; [|by apply kp_ret].
  unfold tagged in He'. rewrite He'. exact (Hf e eq_refl).
Qed.
Lemma kp_validation v st name tc fi : kp (bind_validation w c v st name tc fi) any.
Proof.
  unfold bind_validation. destruct v as [|x args]; [by apply kp_ret|]. eapply kp_bind; [apply kp_execute|]. intros e _.
  eapply kp_bind; [apply kp_stdout|]. intros fe Hf. eapply kp_bind; [apply kp_cerr|]. intros e' He'. apply kp_bind_add; [|by apply kp_ret].
  unfold tagged, tagged2 in *. rewrite He', Hf. by destruct name.
Qed.
Lemma kp_output_gen g st tc fi val : ids tc -> kp (bind_output w c t g st tc fi val) any.
Proof.
  intros Hi. unfold bind_output. apply (kp_bind _ any); [|intros f _; eapply kp_bind; [apply kp_write; intros _; exists tc; tauto|]; intros ? _; by apply kp_ret].
  destruct g as [|p|x args].
  - eapply kp_bind; [apply kp_new_id|]. intros f _. eapply kp_bind; [apply kp_provide_key|]. intros ? _. by apply kp_ret.
  - destruct (w_exists w p); [|apply kp_err]. apply kp_provide_new.
  - eapply kp_bind; [apply kp_execute|]. intros e _. eapply kp_bind; [apply kp_io|]. intros fe Hf. eapply kp_bind; [apply kp_cerr|]. intros e' He'.
    apply kp_bind_add; [|by apply kp_ret]. unfold tagged, tagged2 in *. rewrite He', Hf. done.
Qed.
Lemma kp_checker ck st tc sol fi fc ft : (forall m n io, bk_type t <> TCommunication m n io) -> kp (bind_checker w c ck st tc sol fi fc ft) any.
Proof.
  intros Hc. unfold bind_checker. apply (kp_bind _ (tagged (Some "checking"))).
  - destruct ck as [|x].
    + eapply kp_bind; [apply kp_new_id|]. intros u _. by apply kp_ret.
    + eapply kp_bind; [apply kp_execute|]. intros e _. eapply kp_bind; [apply kp_cout|]. intros e1 H1. eapply kp_bind; [apply kp_cerr|]. intros e2 H2.
      apply kp_ret. unfold tagged in *. cbn. rewrite H2, H1. done.
  - intros e He. apply kp_bind_add'. unfold tagged in He. rewrite He. unfold tag_of. destruct (bk_type t) as [| |] eqn:E; [done| |done]. by destruct (Hc _ _ _ eq_refl).
Qed.
Lemma kp_batch ck st tc sol fi val fc : (forall m n io, bk_type t <> TCommunication m n io) -> kp (evaluate_batch w c t ck st tc sol fi val fc) any.
Proof.
  intros Hc. unfold evaluate_batch. eapply kp_bind; [apply kp_execute|]. intros e _. eapply kp_bind; [apply kp_io|]. intros fe Hf.
  apply kp_bind_add; [|by apply kp_checker]. unfold tagged2 in Hf. cbn. by rewrite Hf.
Qed.
Lemma ht_process V io st tc sol n p : ht V (process w c t io st tc sol n p) (fun e => e :: V) any.
Proof.
  destruct p as [i [a b]]. unfold process. eapply ht_bind; [apply kp_execute|]. intros e _. eapply ht_bind; [apply ht_bind_role; done|]. intros ? _.
  intros s x s' Hs [= <- <-]. done.
Qed.
Lemma G_perm V V' s : V ≡ₚ V' -> G V s -> G V' s.
Proof. intros E [H1 H2]. split; [|done]. intros e. rewrite <-E. apply H1. Qed.
Lemma ht_processes V io st tc sol n l : ht V (processes w c t io st tc sol n l) (fun es => es ++ V) any.
Proof.
  revert V. induction l as [|p l IH]; intros V; cbn [processes]; [intros s x s' Hs [= <- <-]; done|].
  eapply ht_bind; [apply ht_process|]. intros e _. eapply ht_bind; [apply IH|]. intros es _. intros s x s' Hs [= <- <-]. split; [|done].
  eapply G_perm; [|exact Hs]. cbn. solve_Permutation.
Qed.
Lemma kp_fifos i k : kp (new_fifos i k) any.
Proof.
  revert i. induction k as [|k IH]; intros i; cbn [new_fifos]; [by apply kp_ret|]. eapply kp_bind; [apply kp_new_id|]. intros a _.
  eapply kp_bind; [apply kp_new_id|]. intros b _. eapply kp_bind; [apply IH|]. intros l _. by apply kp_ret.
Qed.
Lemma kp_communication m n io st tc sol fi val : (forall ck, bk_type t <> TBatch ck) -> bk_type t <> TNone -> kp (evaluate_communication w c t m n io st tc sol fi val) any.
Proof.
  intros Hb Hn. unfold evaluate_communication. intros V. eapply ht_bind; [apply kp_new_id|]. intros g _. eapply ht_bind; [apply kp_fifos|]. intros fifos _.
  eapply ht_bind; [apply ht_processes|]. intros es _. eapply ht_bind; [apply kp_execute|]. intros e _. eapply ht_bind; [apply kp_cout|]. intros e1 H1.
  eapply ht_bind; [apply kp_cerr|]. intros e2 H2. eapply ht_bind; [apply kp_io|]. intros fe Hf. eapply ht_bind.
  { apply ht_bind_role. unfold tagged, tagged2 in *. cbn. rewrite Hf, H2, H1. unfold tag_of. destruct (bk_type t) as [ck| |] eqn:E; [by destruct (Hb ck)|done|done]. }
  intros ? _. intros s x s' Hs. apply (ht_add_group V g _ _ s x s'). eapply G_perm; [|exact Hs]. rewrite <-app_assoc. cbn. solve_Permutation.
Qed.
Lemma kp_evaluate st tc fi val fc sol : kp (evaluate w c t st tc fi val fc sol) any.
Proof. unfold evaluate. destruct (bk_type t) eqn:E; [apply kp_batch|apply kp_communication|by apply kp_ret]; by rewrite E. Qed.
Lemma kp_build sols : (forall sub tc, sub ∈ bk_subtasks t -> tc ∈ bs_owned sub -> ids tc) -> kp (build_dag w c t sols) any.
Proof.
  intros Hids. unfold build_dag. apply (kp_bind _ any).
  { unfold prepare_task. destruct (bk_type t) as [[]| |]; try (by apply kp_ret); apply kp_prepare. }
  intros ? _. apply (kp_bind _ any).
  - generalize (∅ : gmap nat file_uuid). revert Hids. generalize (bk_subtasks t). induction l as [|sub l IH]; intros Hids acc; cbn [mfold]; [by apply kp_ret|].
    apply (kp_bind _ any); [|intros ? _; apply IH; intros; eapply Hids; [|done]; by right].
    unfold build_subtask. assert (H : forall tc, tc ∈ bs_owned sub -> ids tc) by (intros; eapply Hids; [|done]; by left). revert H acc. generalize (bs_owned sub).
    induction l0 as [|tc ow IHo]; intros Ho acc; cbn [mfold]; [by apply kp_ret|]. apply (kp_bind _ any); [|intros ? _; apply IHo; intros; apply Ho; by right].
    unfold build_testcase. destruct (bk_testcases t !! tc) as [b|]; [|apply kp_panic].
    eapply kp_bind; [apply kp_input; apply Ho; by left|]. intros fi _. eapply kp_bind; [apply kp_validation|]. intros val _.
    eapply kp_bind; [apply kp_output_gen; apply Ho; by left|]. intros fc _. eapply kp_bind; [apply kp_mforeach; intros; apply kp_evaluate|]. intros ? _. by apply kp_ret.
  - intros acc _. apply kp_mforeach. intros sub _. apply kp_mforeach. intros tc _. unfold validate_other. case_decide; [by apply kp_ret|].
    destruct (bk_testcases t !! tc); [|apply kp_panic]. destruct (acc !! tc); [|apply kp_panic]. eapply kp_bind; [apply kp_validation|]. intros ? _. by apply kp_ret.
Qed.
End tags.

Lemma build_tags w c t sols n0 s : build_dag w c t sols (bstate0 n0) = ROk (tt, s) ->
  (forall e, e ∈ execs_of s -> exists r, (e_uuid e, r) ∈ b_roles s /\ e_tag e = Some (tag_of (bk_type t) r)) /\
  (forall f p, (f, (p, false)) ∈ b_written s -> exists sub tc, sub ∈ bk_subtasks t /\ tc ∈ bs_owned sub /\
     (p = input_file_name (bk_path t) tc \/ p = output_file_name (bk_path t) tc)).
Proof.
  intros E. destruct (kp_build w c t (fun tc => exists sub, sub ∈ bk_subtasks t /\ tc ∈ bs_owned sub) sols) with (V := @nil execution) (s := bstate0 n0) (a := tt) (s' := s)
    as [[H1 H2] _]; [by eauto|by split; intros ? **; set_solver|done|].
  split.
  - intros e He. apply H1. by rewrite app_nil_r.
  - intros f p Hp. destruct (H2 f p Hp) as (tc & (sub & H3 & H4) & H5). by exists sub, tc.
Qed.
