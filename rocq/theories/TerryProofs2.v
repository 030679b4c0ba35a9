(** * TerryProofs2: every execution of a Terry task is bound once; which source files are prepared; when it fails *)
From Verif Require Import TerryModel BuildSpec TerrySpec CheckDagSpec BuildProofs BuildProofs2 BuildProofs3 BuildProofs4 BuildProofs7 TerryProofs.
From Coq Require Import Ascii String.
From stdpp Require Import base list.
Local Open Scope nat_scope.

Section bal.
Context (w : world) (c : build_config).
Local Notation same := (same c).
Hint Resolve same_ret same_err same_panic same_new_id same_provide same_provide_key same_handle same_set same_write same_provide_new same_stdout same_stderr
  same_cout same_cerr same_output same_prepare same_execute : same.
Ltac sm := repeat first [ solve [auto with same] | apply same_bind; [|intros] | case_decide | match goal with |- same (match ?x with _ => _ end) => destruct x end ].
Lemma same_include o e : same (include_official w c o e). Proof. unfold include_official, executable. sm. Qed.
Lemma same_copy t f sol ext : same (copy_io c t f sol ext). Proof. unfold copy_io. sm. Qed.
Hint Resolve same_include same_copy : same.
Lemma same_t_generate t seed : same (t_generate w c t seed). Proof. unfold t_generate. sm. Qed.
Hint Resolve same_t_generate : same.
Lemma same_t_generate_and_bind t sol seed : same (t_generate_and_bind w c t sol seed).
Proof.
  unfold t_generate_and_bind. apply same_bind; [auto with same|]. intros fe. apply same_bind; [auto with same|]. intros ?.
  apply same_bind; [auto with same|]. intros e. apply bind_add. auto with same.
Qed.
Lemma same_t_validate t v sol fi : same (t_validate_and_bind w c t v sol fi).
Proof.
  unfold t_validate_and_bind. apply same_bind; [auto with same|]. intros e. apply same_bind; [auto with same|]. intros e'.
  apply same_bind; [auto with same|]. intros fe. apply same_bind; [auto with same|]. intros e''. apply bind_add. auto with same.
Qed.
Lemma same_t_solve t sol fi val : same (t_solve_and_bind w c t sol fi val).
Proof.
  unfold t_solve_and_bind. apply same_bind; [auto with same|]. intros e. cbv zeta. apply same_bind; [auto with same|]. intros fe.
  apply same_bind; [auto with same|]. intros ?. apply same_bind; [auto with same|]. intros e''. apply bind_add. auto with same.
Qed.
Lemma same_t_check t sol fi fo : same (t_check_and_bind w c t sol fi fo).
Proof.
  unfold t_check_and_bind. apply same_bind; [auto with same|]. intros e. apply same_bind; [auto with same|]. intros e'. cbv zeta.
  apply same_bind; [auto with same|]. intros fe. apply same_bind; [auto with same|]. intros e''. apply bind_add'.
Qed.
Lemma same_terry conf t sols : same (terry_build w c conf t sols).
Proof.
  apply same_mforeach. intros p. unfold t_solution. apply same_bind; [apply same_t_generate_and_bind|]. intros fi. apply same_bind.
  { destruct (tt_validator t); [|auto with same]. apply same_bind; [apply same_t_validate|]. auto with same. }
  intros val. apply same_bind; [apply same_t_solve|]. intros fo. apply same_t_check.
Qed.
Lemma terry_balanced n0 conf t sols s : terry_build w c conf t sols (bstate0 n0) = ROk (tt, s) ->
  (b_roles s).*1 ≡ₚ dids s /\ (cfg_dry_run (bc_dag c) = true -> b_written s = []).
Proof.
  intros E. destruct (same_terry conf t sols [] (bstate0 n0) tt s) as [H1 H2]; [by split|done|]. by rewrite app_nil_r in H1.
Qed.
End bal.

(** ** The sources that are prepared are those of [U]; there is no error if [F] *)
Section used.
Context (w : world) (c : build_config) (U : list source) (F : Prop).
Context (HF1 : F -> forall p, w_exists w p = true -> is_Some (w_key w p)) (HF2 : F -> forall src, src ∈ U -> source_there w src).
Definition UI (s : bstate) : Prop := forall i f, b_exes s !! i = Some f -> exists src, src ∈ U /\ sf_id src = i.
Definition fine {A} (m : M A) : Prop := forall s, UI s ->
  match m s with ROk (_, s') => UI s' | RErr => ~ F | RPanic => True end.
Lemma fine_bind {A B} (m : M A) (f : A -> M B) : fine m -> (forall a, fine (f a)) -> fine (bind m f).
Proof. intros Hm Hf s Hs. unfold bind. specialize (Hm s Hs). destruct (m s) as [[a s']| |]; [by apply Hf|done|done]. Qed.
Lemma fine_ret {A} (a : A) : fine (ret a). Proof. by intros s Hs. Qed.
Lemma fine_panic {A} : fine (@panic A). Proof. by intros s Hs. Qed.
Lemma fine_err {A} : ~ F -> fine (@err A). Proof. by intros H s Hs. Qed.
Lemma fine_new_id : fine new_id. Proof. by intros s Hs. Qed.
Lemma fine_provide f p : (F -> is_Some (w_key w p)) -> fine (provide_file w f p).
Proof. intros H s Hs. unfold provide_file. destruct (w_key w p); [done|]. intros HF. by destruct (H HF). Qed.
Lemma fine_handle x : fine (exe_handle x). Proof. by intros s Hs. Qed.
Lemma fine_set x f : x ∈ U -> fine (set_exe x f).
Proof. intros Hx s Hs i g. cbn [b_exes]. rewrite lookup_insert_Some. intros [[<- _]|[_ Hg]]; [by exists x|by eapply Hs]. Qed.
Lemma fine_write f p x : fine (write_file_to c f p x).
Proof. intros s Hs. unfold write_file_to. by destruct (cfg_dry_run _). Qed.
Lemma fine_role e r : fine (bind_role e r). Proof. by intros s Hs. Qed.
Lemma fine_group g es f : fine (add_group c g es f). Proof. by intros s Hs. Qed.
Hint Resolve fine_ret fine_panic fine_new_id fine_handle fine_write fine_role fine_group : fine.
Lemma fine_mfold {A B} (f : B -> A -> M B) l b : (forall b a, a ∈ l -> fine (f b a)) -> fine (mfold f l b).
Proof.
  intros H. revert b. induction l as [|a l IH]; intros b; cbn [mfold]; [apply fine_ret|]. apply fine_bind; [apply H; by left|]. intros; apply IH.
  intros ? ? ?. apply H. by right.
Qed.
Lemma fine_mforeach {A} (f : A -> M unit) l : (forall a, a ∈ l -> fine (f a)) -> fine (mforeach f l).
Proof.
  intros H. induction l as [|a l IH]; cbn [mforeach]; [apply fine_ret|]. apply fine_bind; [apply H; by left|]. intros; apply IH.
  intros ? ?. apply H. by right.
Qed.
Ltac fn := intros; repeat first [ solve [auto with fine] | apply fine_bind; [|intros] | progress cbv zeta | case_decide | match goal with |- fine (match ?x with _ => _ end) => destruct x end ].
Lemma fine_execution e : fine (add_execution c e). Proof. unfold add_execution. fn. Qed.
Lemma fine_stdout e : fine (stdout_of e). Proof. unfold stdout_of. fn. Qed.
Lemma fine_stderr e : fine (stderr_of e). Proof. unfold stderr_of. fn. Qed.
Hint Resolve fine_stdout fine_stderr fine_execution : fine.
Lemma fine_cout n e : fine (capture_stdout n e). Proof. unfold capture_stdout. fn. Qed.
Lemma fine_cerr n e : fine (capture_stderr n e). Proof. unfold capture_stderr. fn. Qed.
Lemma fine_output p e : fine (output_of p e). Proof. unfold output_of. fn. Qed.
Hint Resolve fine_cout fine_cerr fine_output : fine.
Lemma fine_provide_new p : (F -> is_Some (w_key w p)) -> fine (provide_new w p).
Proof. intros H. unfold provide_new. apply fine_bind; [fn|]. intros. apply fine_bind; [by apply fine_provide|]. fn. Qed.
Lemma fine_deps l e : (F -> forall d, d ∈ l -> is_Some (w_key w (dp_local d))) -> fine (mfold (add_dep w) l e).
Proof.
  intros H. apply fine_mfold. intros b d Hd. unfold add_dep. apply fine_bind; [|fn]. apply fine_provide_new. intros HF. by apply H.
Qed.
Lemma fine_args x l e : fine (mfold (add_arg_file w x) l e).
Proof.
  apply fine_mfold. intros b a Ha. unfold add_arg_file. destruct (w_exists w _) eqn:E; [|fn]. apply fine_bind; [|fn]. apply fine_provide_new. intros HF.
  by apply HF1.
Qed.
Lemma fine_compile x cs : x ∈ U -> sf_compile x = Some cs -> fine (compile w c x cs).
Proof.
  intros Hx E. unfold compile. apply fine_bind; [fn|]. intros. apply fine_bind.
  { apply fine_deps. intros HF d Hd. destruct (HF2 HF x Hx) as (_ & _ & H & _). by eapply H. }
  intros. apply fine_bind.
  { apply fine_provide_new. intros HF. apply (HF2 HF x Hx). }
  intros. apply fine_bind.
  { destruct (sf_grader x) as [[gf gd]|] eqn:Eg; [|fn]. apply fine_bind; [|fn]. apply fine_provide. intros HF.
    destruct (HF2 HF x Hx) as (_ & _ & _ & H). by eapply H. }
  fn.
Qed.
Lemma fine_prepare x : x ∈ U -> fine (prepare w c x).
Proof.
  intros Hx. unfold prepare. apply fine_bind; [fn|]. intros [f|]; [fn|]. destruct (sf_compile x) as [cs|] eqn:E.
  - apply fine_bind; [by apply fine_compile|]. intros. do 2 (apply fine_bind; [fn|]; intros). apply fine_bind; [fn|]. intros. apply fine_bind; [by apply fine_set|]. fn.
  - do 2 (apply fine_bind; [fn|]; intros). apply fine_bind; [by apply fine_set|]. intros. apply fine_provide. intros HF. apply (HF2 HF x Hx).
Qed.
Lemma fine_execute x args : x ∈ U -> fine (execute w c x args).
Proof.
  intros Hx. unfold execute. apply fine_bind; [by apply fine_prepare|]. intros. apply fine_bind; [fn|]. intros. apply fine_bind; [apply fine_args|]. intros.
  apply fine_bind; [fn|]. intros [exe|]; [|fn]. apply fine_bind.
  { apply fine_deps. intros HF. apply (HF2 HF x Hx). }
  intros. apply fine_bind; [|fn]. destruct (sf_grader x) as [[gf gd]|] eqn:Eg, (sf_compile x) eqn:Ec; try fn. apply fine_provide. intros HF.
  destruct (HF2 HF x Hx) as (_ & _ & _ & H). by eapply H.
Qed.
Lemma fine_executable x : x ∈ U -> fine (executable w c x).
Proof. intros Hx. unfold executable. apply fine_bind; [by apply fine_prepare|]. fn. Qed.
Hint Resolve fine_execute fine_executable : fine.
Lemma fine_include o e : (forall x, o = Some x -> x ∈ U) -> (F -> forall x, o = Some x -> exists p, sf_write_to x = Some p /\ is_Some (name_of p)) ->
  fine (include_official w c o e).
Proof.
  intros HU HF. unfold include_official. destruct o as [x|]; [|fn]. apply fine_bind; [apply fine_executable; by apply HU|]. intros f.
  destruct (sf_write_to x) as [p|] eqn:Ep; [destruct (name_of p) eqn:En; [fn|]|]; apply fine_err; intros Hf; destruct (HF Hf x eq_refl) as (q & Hq & Hn).
  - rewrite Ep in Hq. injection Hq as <-. rewrite En in Hn. by destruct Hn.
  - by rewrite Ep in Hq.
Qed.
End used.

Lemma fine_terry w c conf t sols : sols <> [] ->
  fine (terry_sources t sols) (terry_there w t sols) (terry_build w c conf t sols).
Proof.
  intros Hne. set (U := terry_sources t sols). set (F := terry_there w t sols).
  assert (HF1 : F -> forall p, w_exists w p = true -> is_Some (w_key w p)) by (intros []; done).
  assert (HF2 : F -> forall src, src ∈ U -> source_there w src) by (intros []; done).
  assert (Hg : tt_generator t ∈ U) by (unfold U, terry_sources, manager_sources; set_solver).
  assert (Hc : tt_checker t ∈ U) by (unfold U, terry_sources, manager_sources; set_solver).
  assert (Hv : forall v, tt_validator t = Some v -> v ∈ U) by (intros v Ev; unfold U, terry_sources, manager_sources; rewrite Ev; set_solver).
  assert (Ho : forall v, tt_official t = Some v -> v ∈ U) by (intros v Ev; unfold U, terry_sources, manager_sources; rewrite Ev; set_solver).
  assert (Hinc : forall e, fine U F (include_official w c (tt_official t) e)).
  { intros e. apply fine_include; [done|done|]. intros HF. apply (tf_official _ _ _ HF). }
  assert (Hcopy : forall f sol ext, fine U F (copy_io c t f sol ext)).
  { intros f sol ext. unfold copy_io. destruct (bc_copy_exe c); [apply fine_write|apply fine_ret]. }
  apply fine_mforeach. intros [sol rnd] Hp.
  assert (Hs : sol ∈ U) by (unfold U, terry_sources; apply elem_of_app; right; apply elem_of_list_fmap; by exists (sol, rnd)).
  assert (Hex : forall x args, x ∈ U -> fine U F (execute w c x args)) by (intros; by apply fine_execute).
  assert (Hfin : forall {A} e r (k : M A), fine U F k -> fine U F (bind_role e r ;! add_execution c e ;! k)).
  { intros A e r k Hk. apply fine_bind; [apply fine_role|]. intros ?. apply fine_bind; [apply fine_execution|]. by intros ?. }
  unfold t_solution. cbn [fst snd]. apply fine_bind.
  { unfold t_generate_and_bind, t_generate. apply fine_bind.
    - apply fine_bind; [by apply Hex|]. intros e. apply fine_bind; [apply Hinc|]. intros e'. apply fine_stdout.
    - intros fe. apply fine_bind; [apply Hcopy|]. intros ?. apply fine_bind; [apply fine_cerr|]. intros e. apply Hfin, fine_ret. }
  intros fi. apply fine_bind.
  { destruct (tt_validator t) as [v|] eqn:Ev; [|apply fine_ret]. apply fine_bind; [|intros; apply fine_ret]. unfold t_validate_and_bind.
    apply fine_bind; [apply Hex; by apply Hv|]. intros e. apply fine_bind; [apply Hinc|]. intros e'. apply fine_bind; [apply fine_stdout|]. intros fe.
    apply fine_bind; [apply fine_cerr|]. intros e''. apply Hfin, fine_ret. }
  intros val. apply fine_bind.
  { unfold t_solve_and_bind. apply fine_bind; [by apply Hex|]. intros e. cbv zeta. apply fine_bind; [apply fine_stdout|]. intros fe.
    apply fine_bind; [apply Hcopy|]. intros ?. apply fine_bind; [apply fine_cerr|]. intros e''. apply Hfin, fine_ret. }
  intros fo. unfold t_check_and_bind. apply fine_bind; [by apply Hex|]. intros e. apply fine_bind; [apply Hinc|]. intros e'. cbv zeta.
  apply fine_bind; [apply fine_cout|]. intros e1. apply fine_bind; [apply fine_cerr|]. intros e2. apply fine_bind; [apply fine_role|]. intros ?. apply fine_execution.
Qed.

(** ** The source files as functions of their handles *)
Section ghost.
Context (n0 : positive) (t : terry_task) (sols : list (source * N)) (H : terry_ok n0 t sols).
Definition t_src_at (i : positive) : source :=
  match list_find (fun s => sf_id s = i) (terry_sources t sols) with Some (_, s) => s | None => no_source end.
Definition t_grader_at (f : positive) : string :=
  match list_find (fun s => fst <$> sf_grader s = Some f) (terry_sources t sols) with
  | Some (_, s) => match sf_grader s with Some (_, gd) => dp_local gd | None => "" end
  | None => "" end.
Lemma t_src_at_ok s : s ∈ terry_sources t sols -> src_ok n0 t_src_at t_grader_at s.
Proof.
  intros Hs. split.
  - unfold t_src_at. destruct (list_find_elem_of (fun x => sf_id x = sf_id s) (terry_sources t sols) s) as [[i s'] E]; [done|done|].
    rewrite E. apply list_find_Some in E as (E & Hid & _). apply (to_handles _ _ _ H); [by eapply elem_of_list_lookup_2|done|done].
  - intros gf gd Hg. split; [by eapply (to_graders _ _ _ H)|]. unfold t_grader_at.
    destruct (list_find_elem_of (fun x => fst <$> sf_grader x = Some gf) (terry_sources t sols) s) as [[i s'] E]; [done|by rewrite Hg|].
    rewrite E. apply list_find_Some in E as (E & Hid & _). destruct (sf_grader s') as [[gf' gd']|] eqn:Eg; [|done]. cbn in Hid. injection Hid as ->.
    eapply (to_grader _ _ _ H); [exact Hs|by eapply elem_of_list_lookup_2|done|done].
Qed.
Lemma t_managers : managers_ok n0 t_src_at t_grader_at t.
Proof.
  assert (HS := t_src_at_ok). unfold terry_sources, manager_sources in HS. split; [apply HS; set_solver|]. split; [apply HS; set_solver|]. split.
  - intros v Ev. apply HS. rewrite Ev. set_solver.
  - intros v Ev. apply HS. rewrite Ev. set_solver.
Qed.
Lemma t_sols p : p ∈ sols -> src_ok n0 t_src_at t_grader_at (fst p).
Proof. intros Hp. apply t_src_at_ok. unfold terry_sources. apply elem_of_app. right. apply elem_of_list_fmap. by exists p. Qed.
End ghost.
