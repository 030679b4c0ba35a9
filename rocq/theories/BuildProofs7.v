(** * BuildProofs7: every execution is bound once; a dry run writes nothing; the DAG is accepted *)
From Verif Require Import BuildModel BuildSpec CheckDagSpec BuildProofs BuildProofs2 BuildProofs3 BuildProofs4 BuildProofs5 BuildProofs6.
From stdpp Require Import relations.

Section bal.
Context (w : world) (c : build_config).
(** [V]: the executions that are bound and not in the DAG yet *)
Definition J (V : list positive) (s : bstate) : Prop :=
  (b_roles s).*1 ≡ₚ dids s ++ V /\ (cfg_dry_run (bc_dag c) = true -> b_written s = []).
Definition hoare {A} (V : list positive) (m : M A) (V' : A -> list positive) : Prop :=
  forall s a s', J V s -> m s = ROk (a, s') -> J (V' a) s'.
Lemma h_bind {A B} V (m : M A) V' (f : A -> M B) V'' : hoare V m V' -> (forall a, hoare (V' a) (f a) V'') -> hoare V (bind m f) V''.
Proof.
  intros Hm Hf s b s' Hs E. unfold bind in E. destruct (m s) as [[a s1]| |] eqn:Em; try done.
  by apply (Hf a s1 b s'); [apply (Hm s a s1)|].
Qed.
Lemma h_ret {A} V (a : A) V' : V' a = V -> hoare V (ret a) V'.
Proof. intros E s x s' Hs [= <- <-]. by rewrite E. Qed.
Definition same {A} (m : M A) : Prop := forall V, hoare V m (fun _ => V).
Lemma same_bind {A B} (m : M A) (f : A -> M B) : same m -> (forall a, same (f a)) -> same (bind m f).
Proof. intros Hm Hf V. eapply h_bind; [apply Hm|]. intros a. apply Hf. Qed.
Lemma same_ret {A} (a : A) : same (ret a).
Proof. intros V. by apply h_ret. Qed.
Lemma same_err {A} : same (@err A). Proof. by intros V s a s'. Qed.
Lemma same_panic {A} : same (@panic A). Proof. by intros V s a s'. Qed.
Lemma same_state {A} (m : M A) : (forall s a s', m s = ROk (a, s') -> b_roles s' = b_roles s /\ b_groups s' = b_groups s /\ b_written s' = b_written s) -> same m.
Proof.
  intros H V s a s' [H1 H2] E. destruct (H s a s' E) as (E1 & E2 & E3). unfold J, dids, execs_of in *. by rewrite E1, E2, E3.
Qed.
Lemma same_new_id : same new_id. Proof. apply same_state. by intros s a s' [= <- <-]. Qed.
Lemma same_provide f p : same (provide_file w f p).
Proof. apply same_state. intros s a s'. unfold provide_file. destruct (w_key w p); [|done]. by intros [= <- <-]. Qed.
Lemma same_provide_key f k : same (provide_key f k). Proof. apply same_state. by intros s a s' [= <- <-]. Qed.
Lemma same_handle x : same (exe_handle x). Proof. apply same_state. by intros s a s' [= <- <-]. Qed.
Lemma same_set x f : same (set_exe x f). Proof. apply same_state. by intros s a s' [= <- <-]. Qed.
Lemma same_write f p x : same (write_file_to c f p x).
Proof.
  intros V s a s' [H1 H2]. unfold write_file_to. destruct (cfg_dry_run (bc_dag c)) eqn:E; intros [= <- <-]; (split; [done|]); [by rewrite H2|by rewrite E].
Qed.
Hint Resolve same_ret same_err same_panic same_new_id same_provide same_provide_key same_handle same_set same_write : same.
Lemma same_mfold {A B} (f : B -> A -> M B) l b : (forall b a, same (f b a)) -> same (mfold f l b).
Proof. intros H. revert b. induction l as [|a l IH]; intros b; cbn [mfold]; [apply same_ret|]. apply same_bind; [apply H|]. intros; apply IH. Qed.
Lemma same_mforeach {A} (f : A -> M unit) l : (forall a, same (f a)) -> same (mforeach f l).
Proof. intros H. induction l as [|a l IH]; cbn [mforeach]; [apply same_ret|]. apply same_bind; [apply H|]. intros; apply IH. Qed.
Ltac sm := repeat first [ solve [auto with same] | apply same_bind; [|intros] | case_decide | match goal with |- same (match ?x with _ => _ end) => destruct x end ].
Lemma same_provide_new p : same (provide_new w p). Proof. unfold provide_new. sm. Qed.
Lemma same_stdout e : same (stdout_of e). Proof. unfold stdout_of. sm. Qed.
Lemma same_stderr e : same (stderr_of e). Proof. unfold stderr_of. sm. Qed.
Hint Resolve same_provide_new same_stdout same_stderr : same.
Lemma same_cout n e : same (capture_stdout n e). Proof. unfold capture_stdout. sm. Qed.
Lemma same_cerr n e : same (capture_stderr n e). Proof. unfold capture_stderr. sm. Qed.
Lemma same_output p e : same (output_of p e). Proof. unfold output_of. sm. Qed.
Lemma same_add_dep e d : same (add_dep w e d). Proof. unfold add_dep. sm. Qed.
Hint Resolve same_cout same_cerr same_output same_add_dep : same.
Lemma same_deps l e : same (mfold (add_dep w) l e). Proof. apply same_mfold. auto with same. Qed.
Lemma same_arg x e a : same (add_arg_file w x e a). Proof. unfold add_arg_file. sm. Qed.
Hint Resolve same_deps same_arg : same.
Lemma same_args x l e : same (mfold (add_arg_file w x) l e). Proof. apply same_mfold. auto with same. Qed.
Lemma same_compile x cs : same (compile w c x cs). Proof. unfold compile. sm. Qed.
Hint Resolve same_args same_compile : same.

Lemma h_bind_role V e r : hoare V (bind_role e r) (fun _ => e_uuid e :: V).
Proof.
  intros s a s' [H1 H2] [= <- <-]. split; [|done]. cbn [b_roles]. rewrite fmap_app. cbn. unfold dids, execs_of in *. cbn [b_groups].
  rewrite H1. solve_Permutation.
Qed.
Lemma dids_group s g es f : dids (BState (b_next s) (b_provided s) (b_groups s ++ [(g, Group g (map (set_config (bc_dag c)) es) f)]) (b_exes s)
             (b_written s) (b_roles s)) = dids s ++ map e_uuid es.
Proof.
  unfold dids, execs_of. cbn [b_groups]. rewrite fmap_app, bind_app, map_app. f_equal. cbn. rewrite app_nil_r, map_map. by apply map_ext.
Qed.
Lemma h_add_group V g es f : hoare (map e_uuid es ++ V) (add_group c g es f) (fun _ => V).
Proof.
  intros s a s' [H1 H2] [= <- <-]. split; [|done]. rewrite dids_group. cbn [b_roles]. rewrite H1. solve_Permutation.
Qed.
Lemma h_add_execution V e : hoare (e_uuid e :: V) (add_execution c e) (fun _ => V).
Proof. unfold add_execution. eapply h_bind; [apply same_new_id|]. intros g. apply (h_add_group V g [e] []). Qed.
Lemma bind_add {A} e r (k : M A) : same k -> same (bind_role e r ;! add_execution c e ;! k).
Proof. intros Hk V. eapply h_bind; [apply h_bind_role|]. intros ?. eapply h_bind; [apply h_add_execution|]. intros ?. apply Hk. Qed.
Lemma bind_add' e r : same (bind_role e r ;! add_execution c e).
Proof. intros V. eapply h_bind; [apply h_bind_role|]. intros ?. apply h_add_execution. Qed.
Lemma add_bind e x f r : same (add_execution c e ;! set_exe x f ;! bind_role e r).
Proof.
  intros V s a s' [H1 H2]. unfold add_execution, bind, new_id, add_group, set_exe, bind_role. intros [= <- <-]. split; [|done].
  unfold dids, execs_of in *. cbn [b_roles b_groups]. rewrite !fmap_app, bind_app, map_app, H1. cbn. solve_Permutation.
Qed.
Lemma same_prepare x : same (prepare w c x).
Proof.
  unfold prepare. apply same_bind; [auto with same|]. intros [f|]; [auto with same|]. destruct (sf_compile x) as [cs|]; [|sm].
  apply same_bind; [auto with same|]. intros ef. apply same_bind; [auto with same|]. intros e. apply same_bind; [auto with same|]. intros e'. apply add_bind.
Qed.
Hint Resolve same_prepare : same.
Lemma same_execute x args : same (execute w c x args).
Proof. unfold execute. sm. Qed.
Hint Resolve same_execute : same.
Lemma same_io t fi val e : same (bind_exec_io t fi val e). Proof. unfold bind_exec_io. sm. Qed.
Hint Resolve same_io : same.
Lemma same_generate g tc : same (generate_input w c g tc). Proof. unfold generate_input. sm. Qed.
Hint Resolve same_generate : same.
Lemma same_input t g st tc : same (bind_input w c t g st tc).
Proof.
  unfold bind_input. apply same_bind; [auto with same|]. intros fe. apply same_bind; [auto with same|]. intros ?. destruct (snd fe); [|auto with same].
  apply same_bind; [auto with same|]. intros e'. apply bind_add. auto with same.
Qed.
Lemma same_validation v st name tc fi : same (bind_validation w c v st name tc fi).
Proof.
  unfold bind_validation. destruct v; [auto with same|]. apply same_bind; [auto with same|]. intros e. apply same_bind; [auto with same|]. intros fe.
  apply same_bind; [auto with same|]. intros e'. apply bind_add. auto with same.
Qed.
Lemma same_output_gen t g st tc fi val : same (bind_output w c t g st tc fi val).
Proof.
  unfold bind_output. apply same_bind; [|intros; sm]. destruct g; [sm|sm|]. apply same_bind; [auto with same|]. intros e. apply same_bind; [auto with same|]. intros fe.
  apply same_bind; [auto with same|]. intros e'. apply bind_add. auto with same.
Qed.
Lemma same_checker ck st tc sol fi fc ft : same (bind_checker w c ck st tc sol fi fc ft).
Proof. unfold bind_checker. apply same_bind; [|intros e; apply bind_add']. destruct ck; sm. Qed.
Lemma same_batch t ck st tc sol fi val fc : same (evaluate_batch w c t ck st tc sol fi val fc).
Proof.
  unfold evaluate_batch. apply same_bind; [auto with same|]. intros e. apply same_bind; [auto with same|]. intros fe.
  apply bind_add. apply same_checker.
Qed.
Lemma h_process V t io st tc sol n p : hoare V (process w c t io st tc sol n p) (fun e => e_uuid e :: V).
Proof.
  destruct p as [i [a b]]. unfold process. eapply h_bind; [apply same_execute|]. intros e. eapply h_bind; [apply h_bind_role|]. intros ?. by apply h_ret.
Qed.
Lemma h_perm {A} V (m : M A) V1 V2 : hoare V m V1 -> (forall a, V1 a ≡ₚ V2 a) -> hoare V m V2.
Proof. intros H E s a s' Hs Em. destruct (H s a s' Hs Em) as [H1 H2]. split; [|done]. by rewrite H1, E. Qed.
Lemma h_perm_pre {A} V V0 (m : M A) V1 : V ≡ₚ V0 -> hoare V0 m V1 -> hoare V m V1.
Proof. intros E H s a s' [H1 H2] Em. apply (H s a s'); [|done]. split; [|done]. by rewrite H1, E. Qed.
Lemma h_processes V t io st tc sol n l : hoare V (processes w c t io st tc sol n l) (fun es => map e_uuid es ++ V).
Proof.
  revert V. induction l as [|p l IH]; intros V; cbn [processes]; [by apply h_ret|].
  eapply h_bind; [apply h_process|]. intros e. eapply h_bind; [apply IH|]. intros es. apply (h_perm_pre _ (map e_uuid (e :: es) ++ V)); [cbn; solve_Permutation|].
  by apply h_ret.
Qed.
Lemma same_fifos i k : same (new_fifos i k).
Proof. revert i. induction k as [|k IH]; intros i; cbn [new_fifos]; [auto with same|]. sm. Qed.
Lemma same_communication t m n io st tc sol fi val : same (evaluate_communication w c t m n io st tc sol fi val).
Proof.
  unfold evaluate_communication. intros V. eapply h_bind; [apply same_new_id|]. intros g. eapply h_bind; [apply same_fifos|]. intros fifos.
  eapply h_bind; [apply h_processes|]. intros es. eapply h_bind; [apply same_execute|]. intros e. eapply h_bind; [apply same_cout|]. intros e1.
  eapply h_bind; [apply same_cerr|]. intros e2. eapply h_bind; [apply same_io|]. intros fe. eapply h_bind; [apply h_bind_role|]. intros ?.
  eapply h_perm_pre; [|apply (h_add_group V)]. rewrite map_app. cbn. solve_Permutation.
Qed.
Lemma same_evaluate t st tc fi val fc sol : same (evaluate w c t st tc fi val fc sol).
Proof. unfold evaluate. destruct (bk_type t); [apply same_batch|apply same_communication|auto with same]. Qed.
Hint Resolve same_input same_validation same_output_gen same_evaluate : same.
Lemma same_build t sols : same (build_dag w c t sols).
Proof.
  unfold build_dag. apply same_bind; [unfold prepare_task; sm|]. intros ?. apply same_bind.
  - apply same_mfold. intros acc sub. apply same_mfold. intros acc' tc. unfold build_testcase. destruct (bk_testcases t !! tc); [|auto with same].
    sm. apply same_mforeach. auto with same.
  - intros acc. apply same_mforeach. intros sub. apply same_mforeach. intros tc. unfold validate_other. sm.
Qed.
Lemma build_balanced n0 t sols s : build_dag w c t sols (bstate0 n0) = ROk (tt, s) ->
  (b_roles s).*1 ≡ₚ dids s /\ (cfg_dry_run (bc_dag c) = true -> b_written s = []).
Proof.
  intros E. destruct (same_build t sols [] (bstate0 n0) tt s) as [H1 H2]; [by split|done|]. by rewrite app_nil_r in H1.
Qed.
End bal.

(** ** The invariant gives a well-formed DAG *)
Lemma pos_of_groups (l : list (group_uuid * group)) k g : (k, g) ∈ l -> exists pre post, l = pre ++ (k, g) :: post.
Proof. intros H. by apply elem_of_list_split in H. Qed.
Lemma groups_wf n0 c s : Inv n0 [] [] s -> NoDup (d_groups (dag_of c s)).*1 /\ well_formed (dag_of c s) /\ callbacks_ok (dag_of c s) (watch_of s).
Proof.
  intros [h1 h2 h3 h4 h5 h6 h7 h8 h9 h10 h11].
  assert (HC : forall x, cnt x (douts s) + cnt x (dids s) + cnt x (b_groups s).*1 + cnt x (b_provided s).*1 <= 1).
  { intros x. specialize (h2 x). unfold low in h2. lia. }
  assert (Hnd : NoDup (b_groups s).*1) by (apply cnt_NoDup; intros x; specialize (HC x); lia).
  assert (Hout : NoDup (douts s ++ (b_provided s).*1)) by (apply cnt_NoDup; intros x; specialize (HC x); rewrite cnt_app; lia).
  split; [done|]. split.
  - split.
    + intros k g Hg. by apply (h5 k g).
    + intros k g Hg. by apply (h5 k g).
    + apply cnt_NoDup. intros x. specialize (HC x). change (cnt x (dids s) <= 1). lia.
    + intros e He. apply h7. rewrite app_nil_r. exact He.
    + intros e He. apply h7. rewrite app_nil_r. exact He.
    + exact Hout.
    + intros e f He Hf. unfold dag_execs in He. cbn [dag_of d_groups] in He. apply elem_of_list_bind in He as (g & He & Hg).
      apply elem_of_list_fmap in Hg as ([k g'] & -> & Hg). apply pos_of_groups in Hg as (pre & post & E).
      destruct (h6 pre k g' post e f E He Hf) as [?|Hin]; [by right|]. left. unfold dag_outputs, dag_execs. cbn [dag_of d_groups]. rewrite E, fmap_app, !bind_app.
      set_solver.
    + (* positions decrease along dependencies *)
      assert (Hdep : forall k1 k2, depends (dag_of c s) k1 k2 -> exists i1 i2, (b_groups s).*1 !! i1 = Some k1 /\ (b_groups s).*1 !! i2 = Some k2 /\ i2 < i1).
      { intros k1 k2 (g1 & g2 & e1 & e2 & f & H1 & H2 & He1 & He2 & Hf1 & Hf2). cbn [dag_of d_groups] in H1, H2.
        apply pos_of_groups in H1 as (pre & post & E). destruct (h6 pre k1 g1 post e1 f E He1 Hf1) as [Hp|Hp].
        - exfalso. rewrite NoDup_app in Hout. destruct Hout as (_ & Hn & _). apply (Hn f); [|done].
          unfold douts, execs_of. apply elem_of_list_bind. exists e2. split; [done|]. apply elem_of_list_bind. exists g2. split; [done|].
          apply elem_of_list_fmap. by exists (k2, g2).
        - apply elem_of_list_bind in Hp as (e2' & Hf2' & He2'). apply elem_of_list_bind in He2' as (g2' & He2' & Hg2').
          apply elem_of_list_fmap in Hg2' as ([k2' g2''] & -> & Hg2'). cbn in He2'.
          assert (k2' = k2) as ->.
          { destruct (decide (k2' = k2)) as [|Hne]; [done|]. exfalso. apply NoDup_app in Hout as (Hout & _).
            apply pos_of_groups in Hg2' as (a & b & ->).
            apply elem_of_list_lookup in H2 as [j2 H2].
            assert (Hj : exists j1, b_groups s !! j1 = Some (k2', g2'')).
            { exists (length a). rewrite E, <- (assoc_L (++)), lookup_app_r by lia. by rewrite Nat.sub_diag. }
            destruct Hj as [j1 Hj1]. assert (j1 <> j2) by (intros ->; congruence).
            assert (Hcnt : 2 <= cnt f (douts s)).
            { assert (Hs : exists l1 l2 l3 x y, b_groups s = l1 ++ x :: l2 ++ y :: l3 /\ f ∈ g_execs (snd x) ≫= outputs /\ f ∈ g_execs (snd y) ≫= outputs).
              { assert (HA : f ∈ g_execs g2 ≫= outputs) by (apply elem_of_list_bind; by exists e2).
                assert (HB : f ∈ g_execs g2'' ≫= outputs) by (apply elem_of_list_bind; by exists e2').
                destruct (decide (j1 < j2)).
                - exists (take j1 (b_groups s)), (take (j2 - j1 - 1) (drop (S j1) (b_groups s))), (drop (S j2) (b_groups s)), (k2', g2''), (k2, g2).
                  split; [|done]. rewrite <- (take_drop_middle (b_groups s) j1 (k2', g2'')) at 1 by done. f_equal. f_equal.
                  rewrite <- (take_drop_middle (drop (S j1) (b_groups s)) (j2 - j1 - 1) (k2, g2)) at 1.
                  + f_equal. f_equal. rewrite drop_drop. f_equal. lia.
                  + rewrite lookup_drop. rewrite <- H2. f_equal. lia.
                - exists (take j2 (b_groups s)), (take (j1 - j2 - 1) (drop (S j2) (b_groups s))), (drop (S j1) (b_groups s)), (k2, g2), (k2', g2'').
                  split; [|done]. rewrite <- (take_drop_middle (b_groups s) j2 (k2, g2)) at 1 by done. f_equal. f_equal.
                  rewrite <- (take_drop_middle (drop (S j2) (b_groups s)) (j1 - j2 - 1) (k2', g2'')) at 1.
                  + f_equal. f_equal. rewrite drop_drop. f_equal. lia.
                  + rewrite lookup_drop. rewrite <- Hj1. f_equal. lia. }
              destruct Hs as (l1 & l2 & l3 & x & y & E' & Hx & Hy). unfold douts, execs_of. rewrite E', !fmap_app, fmap_cons, fmap_app, fmap_cons.
              rewrite !bind_app, !bind_cons, !bind_app, !bind_cons, !bind_app. rewrite !cnt_app. apply cnt_in in Hx, Hy. lia. }
            pose proof (HC f). lia. }
          apply pos_of_groups in Hg2' as (a & b & ->). exists (length (a ++ (k2, g2'') :: b)), (length a). rewrite E.
          split; [|split].
          + rewrite fmap_app, fmap_cons, lookup_app_r; rewrite fmap_length; [|lia]. by rewrite Nat.sub_diag.
          + rewrite <- (assoc_L (++)), fmap_app, lookup_app_r; rewrite fmap_length; [|lia]. by rewrite Nat.sub_diag.
          + rewrite app_length. cbn. lia. }
      intros k Hk.
      assert (Htc : forall k1 k2, tc (depends (dag_of c s)) k1 k2 -> exists i1 i2, (b_groups s).*1 !! i1 = Some k1 /\ (b_groups s).*1 !! i2 = Some k2 /\ i2 < i1).
      { intros k1 k2 H. induction H as [k1 k2 H|k1 k2 k3 H _ (i2 & i3 & H2 & H3 & Hlt)]; [by apply Hdep|].
        destruct (Hdep k1 k2 H) as (i1 & i2' & H1 & H2' & Hlt'). assert (i2' = i2) as -> by (exact (NoDup_lookup _ _ _ _ Hnd H2' H2)). exists i1, i3. split; [done|]. split; [done|lia]. }
      destruct (Htc k k Hk) as (i1 & i2 & E1 & E2 & Hlt). assert (i1 = i2) by (exact (NoDup_lookup _ _ _ _ Hnd E1 E2)). lia.
  - split.
    + intros f Hf. destruct (h10 f Hf) as [[?|?]|Hn]; [by left|by right|by apply elem_of_nil in Hn].
    + intros u Hu. destruct (h11 u Hu) as [?|Hn]; [done|by apply elem_of_nil in Hn].
Qed.

(** ** A task whose source files are well-formed *)
Definition no_source : source := Source 1 "" "" None None None false "" (System "") id [] id.
Section ghost.
Context (n0 : positive) (t : btask) (sols : list source) (H : task_ok n0 t sols).
Definition src_at (i : positive) : source :=
  match list_find (fun s => sf_id s = i) (task_sources t sols) with Some (_, s) => s | None => no_source end.
Definition grader_at (f : positive) : string :=
  match list_find (fun s => fst <$> sf_grader s = Some f) (task_sources t sols) with
  | Some (_, s) => match sf_grader s with Some (_, gd) => dp_local gd | None => "" end
  | None => "" end.
Lemma src_at_ok s : s ∈ task_sources t sols -> src_ok n0 src_at grader_at s.
Proof.
  intros Hs. split.
  - unfold src_at. destruct (list_find_elem_of (fun x => sf_id x = sf_id s) (task_sources t sols) s) as [[i s'] E]; [done|done|].
    rewrite E. apply list_find_Some in E as (E & Hid & _). apply (tk_handles _ _ _ H); [by eapply elem_of_list_lookup_2|done|done].
  - intros gf gd Hg. split; [by eapply (tk_graders _ _ _ H)|]. unfold grader_at.
    destruct (list_find_elem_of (fun x => fst <$> sf_grader x = Some gf) (task_sources t sols) s) as [[i s'] E]; [done|by rewrite Hg|].
    rewrite E. apply list_find_Some in E as (E & Hid & _). destruct (sf_grader s') as [[gf' gd']|] eqn:Eg; [|done]. cbn in Hid. injection Hid as ->.
    eapply (tk_grader _ _ _ H); [exact Hs|by eapply elem_of_list_lookup_2|done|done].
Qed.
Lemma sources_ghost : sources_ok n0 src_at grader_at t sols.
Proof.
  assert (HS := src_at_ok). unfold task_sources in HS. split; [|split; [|split]].
  - destruct (bk_type t) as [[|s]|m n io|] eqn:E; cbn; try done; apply HS; apply elem_of_app; left; cbn; by left.
  - intros sol Hsol. apply HS. set_solver.
  - intros sub Hsub. destruct (bs_validator sub) eqn:E; cbn; [done|]. apply HS. apply elem_of_app. right. apply elem_of_app. right. apply elem_of_app. left.
    apply elem_of_list_bind. exists sub. split; [rewrite E; by left|done].
  - intros tc b Hb. apply elem_of_map_to_list in Hb.
    assert (HI : forall s, s ∈ input_sources (bt_input b) ++ output_sources (bt_output b) -> src_ok n0 src_at grader_at s).
    { intros s Hs. apply HS. apply elem_of_app. right. apply elem_of_app. right. apply elem_of_app. right.
      apply elem_of_list_bind. exists b. split; [done|]. apply elem_of_list_fmap. by exists (tc, b). }
    split; [destruct (bt_input b)|destruct (bt_output b)]; cbn; try done; apply HI; set_solver.
Qed.
Lemma testcases_ghost : testcases_ok t.
Proof.
  split; [exact (tk_owned _ _ _ H)|]. intros sub tc Hs Ht. right. by apply (tk_used _ _ _ H sub).
Qed.
End ghost.
