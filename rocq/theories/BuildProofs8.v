(** * BuildProofs8: which source files are prepared; when the construction fails *)
From Verif Require Import BuildModel BuildSpec BuildProofs BuildProofs3 BuildProofs6 BuildProofs7.

Section used.
Context (w : world) (c : build_config) (t : btask) (sols : list source).
Definition UI (s : bstate) : Prop := forall i f, b_exes s !! i = Some f -> exists src, src ∈ used_sources t sols /\ sf_id src = i.
Definition fine {A} (m : M A) : Prop := forall s, UI s ->
  match m s with ROk (_, s') => UI s' | RErr => ~ files_there w t sols | RPanic => True end.
Lemma fine_bind {A B} (m : M A) (f : A -> M B) : fine m -> (forall a, fine (f a)) -> fine (bind m f).
Proof. intros Hm Hf s Hs. unfold bind. specialize (Hm s Hs). destruct (m s) as [[a s']| |]; [by apply Hf|done|done]. Qed.
Lemma fine_ret {A} (a : A) : fine (ret a). Proof. by intros s Hs. Qed.
Lemma fine_panic {A} : fine (@panic A). Proof. by intros s Hs. Qed.
Lemma fine_err {A} : ~ files_there w t sols -> fine (@err A). Proof. by intros H s Hs. Qed.
Lemma fine_new_id : fine new_id. Proof. by intros s Hs. Qed.
Lemma fine_provide f p : (files_there w t sols -> is_Some (w_key w p)) -> fine (provide_file w f p).
Proof. intros H s Hs. unfold provide_file. destruct (w_key w p); [done|]. intros HF. by destruct (H HF). Qed.
Lemma fine_provide_key f k : fine (provide_key f k). Proof. by intros s Hs. Qed.
Lemma fine_handle x : fine (exe_handle x). Proof. by intros s Hs. Qed.
Lemma fine_set x f : x ∈ used_sources t sols -> fine (set_exe x f).
Proof. intros Hx s Hs i g. cbn [b_exes]. rewrite lookup_insert_Some. intros [[<- _]|[_ Hg]]; [by exists x|by eapply Hs]. Qed.
Lemma fine_write f p x : fine (write_file_to c f p x).
Proof. intros s Hs. unfold write_file_to. by destruct (cfg_dry_run _). Qed.
Lemma fine_role e r : fine (bind_role e r). Proof. by intros s Hs. Qed.
Lemma fine_group g es f : fine (add_group c g es f). Proof. by intros s Hs. Qed.
Hint Resolve fine_ret fine_panic fine_new_id fine_provide_key fine_handle fine_write fine_role fine_group : fine.
Lemma fine_mfold {A B} (f : B -> A -> M B) l b : (forall b a, a ∈ l -> fine (f b a)) -> fine (mfold f l b).
Proof.
  intros H. revert b. induction l as [|a l IH]; intros b; cbn [mfold]; [apply fine_ret|]. apply fine_bind; [apply H; by left|]. intros; apply IH.
  intros ? ? ?. apply H. by right.
Qed.
Lemma fine_mforeach {A} (f : A -> M unit) l : (forall a, a ∈ l -> fine (f a)) -> fine (mforeach f l).
Proof.
  intros H. induction l as [|a l IH]; cbn [mforeach]; [apply fine_ret|]. apply fine_bind; [apply H; by left|]. intros; apply IH.
  intros ? ?. apply H. by right.
Qed.
Ltac fn := intros; repeat first [ solve [auto with fine] | apply fine_bind; [|intros] | progress cbv zeta | case_decide | match goal with |- fine (match ?x with _ => _ end) => destruct x end ].
Lemma fine_execution e : fine (add_execution c e). Proof. unfold add_execution. fn. Qed.
Lemma fine_stdout e : fine (stdout_of e). Proof. unfold stdout_of. fn. Qed.
Lemma fine_stderr e : fine (stderr_of e). Proof. unfold stderr_of. fn. Qed.
Hint Resolve fine_stdout fine_stderr fine_execution : fine.
Lemma fine_cout n e : fine (capture_stdout n e). Proof. unfold capture_stdout. fn. Qed.
Lemma fine_cerr n e : fine (capture_stderr n e). Proof. unfold capture_stderr. fn. Qed.
Lemma fine_output p e : fine (output_of p e). Proof. unfold output_of. fn. Qed.
Hint Resolve fine_cout fine_cerr fine_output : fine.
Lemma fine_provide_new p : (files_there w t sols -> is_Some (w_key w p)) -> fine (provide_new w p).
Proof. intros H. unfold provide_new. apply fine_bind; [fn|]. intros. apply fine_bind; [by apply fine_provide|]. fn. Qed.
Lemma fine_deps l e : (files_there w t sols -> forall d, d ∈ l -> is_Some (w_key w (dp_local d))) -> fine (mfold (add_dep w) l e).
Proof.
  intros H. apply fine_mfold. intros b d Hd. unfold add_dep. apply fine_bind; [|fn]. apply fine_provide_new. intros HF. by apply H.
Qed.
Lemma fine_args x l e : fine (mfold (add_arg_file w x) l e).
Proof.
  apply fine_mfold. intros b a Ha. unfold add_arg_file. destruct (w_exists w _) eqn:E; [|fn]. apply fine_bind; [|fn]. apply fine_provide_new. intros HF.
  by apply (ft_exists _ _ _ HF).
Qed.
Lemma fine_compile x cs : x ∈ used_sources t sols -> sf_compile x = Some cs -> fine (compile w c x cs).
Proof.
  intros Hx E. unfold compile. apply fine_bind; [fn|]. intros. apply fine_bind.
  { apply fine_deps. intros HF d Hd. destruct (ft_sources _ _ _ HF x Hx) as (_ & _ & H & _). by eapply H. }
  intros. apply fine_bind.
  { apply fine_provide_new. intros HF. apply (ft_sources _ _ _ HF x Hx). }
  intros. apply fine_bind.
  { destruct (sf_grader x) as [[gf gd]|] eqn:Eg; [|fn]. apply fine_bind; [|fn]. apply fine_provide. intros HF.
    destruct (ft_sources _ _ _ HF x Hx) as (_ & _ & _ & H). by eapply H. }
  fn.
Qed.
Lemma fine_prepare x : x ∈ used_sources t sols -> fine (prepare w c x).
Proof.
  intros Hx. unfold prepare. apply fine_bind; [fn|]. intros [f|]; [fn|]. destruct (sf_compile x) as [cs|] eqn:E.
  - apply fine_bind; [by apply fine_compile|]. intros. do 2 (apply fine_bind; [fn|]; intros). apply fine_bind; [fn|]. intros. apply fine_bind; [by apply fine_set|]. fn.
  - do 2 (apply fine_bind; [fn|]; intros). apply fine_bind; [by apply fine_set|]. intros. apply fine_provide. intros HF. apply (ft_sources _ _ _ HF x Hx).
Qed.
Lemma fine_execute x args : x ∈ used_sources t sols -> fine (execute w c x args).
Proof.
  intros Hx. unfold execute. apply fine_bind; [by apply fine_prepare|]. intros. apply fine_bind; [fn|]. intros. apply fine_bind; [apply fine_args|]. intros.
  apply fine_bind; [fn|]. intros [exe|]; [|fn]. apply fine_bind.
  { apply fine_deps. intros HF. apply (ft_sources _ _ _ HF x Hx). }
  intros. apply fine_bind; [|fn]. destruct (sf_grader x) as [[gf gd]|] eqn:Eg, (sf_compile x) eqn:Ec; try fn. apply fine_provide. intros HF.
  destruct (ft_sources _ _ _ HF x Hx) as (_ & _ & _ & H). by eapply H.
Qed.
Lemma fine_io fi val e : fine (bind_exec_io t fi val e). Proof. unfold bind_exec_io. fn. Qed.
Hint Resolve fine_io : fine.
Definition used_l (l : list source) : Prop := forall x, x ∈ l -> x ∈ used_sources t sols.
Lemma fine_input g st tc b : bk_testcases t !! tc = Some b -> bt_input b = g -> used_l (input_sources g) -> fine (bind_input w c t g st tc).
Proof.
  intros Eb Eg HU. unfold bind_input. apply fine_bind; [|fn]. unfold generate_input. destruct g as [p|x args].
  - destruct (w_exists w p) eqn:E.
    + apply fine_bind; [|fn]. apply fine_provide_new. intros HF. by apply (ft_exists _ _ _ HF).
    + apply fine_err. intros HF. by rewrite (ft_inputs _ _ _ HF tc b p Eb Eg) in E.
  - apply fine_bind; [apply fine_execute, HU; by left|]. fn.
Qed.
Lemma fine_validation v st name tc fi : used_l (validator_sources v) -> fine (bind_validation w c v st name tc fi).
Proof.
  intros HU. unfold bind_validation. destruct v as [|x args]; [fn|]. apply fine_bind; [apply fine_execute, HU; by left|]. fn.
Qed.
Lemma fine_output_gen g st tc b fi val : bk_testcases t !! tc = Some b -> bt_output b = g -> used_l (output_sources g) -> fine (bind_output w c t g st tc fi val).
Proof.
  intros Eb Eg HU. unfold bind_output. apply fine_bind; [|fn]. destruct g as [|p|x args].
  - fn.
  - destruct (w_exists w p) eqn:E.
    + apply fine_provide_new. intros HF. by apply (ft_exists _ _ _ HF).
    + apply fine_err. intros HF. by rewrite (ft_outputs _ _ _ HF tc b p Eb Eg) in E.
  - apply fine_bind; [apply fine_execute, HU; by left|]. fn.
Qed.
Lemma used_type : used_l (type_sources (bk_type t)).
Proof. intros x Hx. unfold used_sources. set_solver. Qed.
Lemma fine_checker ck st tc sol fi fc ft : bk_type t = TBatch ck -> fine (bind_checker w c ck st tc sol fi fc ft).
Proof.
  intros E. unfold bind_checker. apply fine_bind; [|fn]. destruct ck as [|x]; [fn|]. apply fine_bind; [|fn]. apply fine_execute, used_type. rewrite E. by left.
Qed.
Lemma fine_process io st tc sol n p : sol ∈ used_sources t sols -> fine (process w c t io st tc sol n p).
Proof. intros HU. destruct p as [i [a b]]. unfold process. apply fine_bind; [by apply fine_execute|]. fn. Qed.
Lemma fine_processes io st tc sol n l : sol ∈ used_sources t sols -> fine (processes w c t io st tc sol n l).
Proof. intros HU. induction l as [|p l IH]; cbn [processes]; [fn|]. apply fine_bind; [by apply fine_process|]. fn. Qed.
Lemma fine_fifos i k : fine (new_fifos i k).
Proof. revert i. induction k as [|k IH]; intros i; cbn [new_fifos]; fn. Qed.
Lemma fine_evaluate st tc fi val fc sol : (bk_type t <> TNone -> sol ∈ used_sources t sols) -> fine (evaluate w c t st tc fi val fc sol).
Proof.
  intros HU. unfold evaluate. destruct (bk_type t) as [ck|m n io|] eqn:E; [| |fn].
  - unfold evaluate_batch. apply fine_bind; [by apply fine_execute, HU|]. intros. do 3 (apply fine_bind; [fn|]; intros). by apply fine_checker.
  - unfold evaluate_communication. apply fine_bind; [fn|]. intros. apply fine_bind; [apply fine_fifos|]. intros. apply fine_bind; [by apply fine_processes, HU|].
    intros. apply fine_bind; [apply fine_execute, used_type; rewrite E; by left|]. fn.
Qed.
Lemma fine_build : fine (build_dag w c t sols).
Proof.
  unfold build_dag. apply fine_bind.
  { unfold prepare_task. pose proof used_type as HU. destruct (bk_type t) as [[|x]|m n io|]; [fn|apply fine_prepare, HU; by left|apply fine_prepare, HU; by left|fn]. }
  intros _. apply fine_bind.
  - apply fine_mfold. intros acc sub Hsub. apply fine_mfold. intros acc' tc Htc. unfold build_testcase. destruct (bk_testcases t !! tc) as [b|] eqn:Eb; [|fn].
    assert (HU : used_l (input_sources (bt_input b) ++ validator_sources (bs_validator sub) ++ output_sources (bt_output b) ++ match bk_type t with TNone => [] | _ => sols end)).
    { intros x Hx. unfold used_sources. apply elem_of_app. right. apply elem_of_app. left. apply elem_of_list_bind. exists sub. split; [|done].
      apply elem_of_list_bind. exists tc. split; [|done]. by rewrite Eb. }
    apply fine_bind; [eapply fine_input; try done; intros x Hx; apply HU; set_solver|]. intros. apply fine_bind; [apply fine_validation; intros x Hx; apply HU; set_solver|]. intros.
    apply fine_bind; [eapply fine_output_gen; try done; intros x Hx; apply HU; set_solver|]. intros. apply fine_bind; [|fn].
    apply fine_mforeach. intros sol Hsol. apply fine_evaluate. intros Hty. apply HU. destruct (bk_type t); [set_solver|set_solver|done].
  - intros acc. apply fine_mforeach. intros sub Hsub. apply fine_mforeach. intros tc Htc. unfold validate_other. destruct (decide (tc ∈ bs_owned sub)) as [|Hn]; [fn|].
    destruct (bk_testcases t !! tc), (acc !! tc); try fn. apply fine_validation. intros x Hx. unfold used_sources. apply elem_of_app. right. apply elem_of_app. right.
    apply elem_of_list_bind. exists sub. split; [|done]. apply elem_of_list_bind. exists tc. split; [|done]. by rewrite decide_False by done.
Qed.
End used.

(** the compiled sources of the ghost functions are used *)
Lemma used_task t sols src : src ∈ used_sources t sols -> src ∈ task_sources t sols.
Proof.
  unfold used_sources, task_sources. rewrite !elem_of_app. intros [?|[H|H]]; [by left| |].
  - apply elem_of_list_bind in H as (sub & H & Hsub). apply elem_of_list_bind in H as (tc & H & Htc). destruct (bk_testcases t !! tc) as [b|] eqn:Eb; [|by apply elem_of_nil in H].
    rewrite !elem_of_app in H. apply elem_of_map_to_list in Eb.
    assert (HB : src ∈ input_sources (bt_input b) ++ output_sources (bt_output b) -> src ∈ (map_to_list (bk_testcases t)).*2 ≫= (fun b => input_sources (bt_input b) ++ output_sources (bt_output b))).
    { intros Hb. apply elem_of_list_bind. exists b. split; [done|]. apply elem_of_list_fmap. by exists (tc, b). }
    rewrite elem_of_app in HB. destruct H as [?|[?|[?|?]]].
    + right. right. right. apply HB. by left.
    + right. right. left. apply elem_of_list_bind. by exists sub.
    + right. right. right. apply HB. by right.
    + right. left. destruct (bk_type t); [done|done|by apply elem_of_nil in H].
  - apply elem_of_list_bind in H as (sub & H & Hsub). apply elem_of_list_bind in H as (tc & H & Htc). case_decide; [by apply elem_of_nil in H|].
    right. right. left. apply elem_of_list_bind. by exists sub.
Qed.
