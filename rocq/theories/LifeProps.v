(** * LifeProps: C77, a run of task-maker ends, and leaves nothing running *)
From stdpp Require Import base list relations.
From Verif Require Import LifeModel LifeSpec LifeProofs LifeProofs2 LifeProofs3 LifeProofs4 LifeProofs5.

(** ** C77: between two events from outside the threads do finitely many steps: nothing loops. *)
Theorem C77_no_endless : forall local valid s, Acc (fun s' s => step local valid s s') s.
Proof. exact step_acc. Qed.

(** ** C77: when no thread can do anything the program ended, unless the evaluation of a local run failed, the client
    manager panicked, or the scheduler has an evaluation that it does not complete with all the workers free. *)
Theorem C77_end_partial : forall local valid n jobs s, reachable local valid n jobs s -> halted local valid s ->
  exited s \/ failed_join local s \/ manager_panicked s \/ starving s.
Proof. exact final_cases. Qed.
(** If ctrl-c is pressed only when the files were sent, the manager does not panic. *)
Theorem C77_calm : forall local valid n jobs s, calm local valid n jobs s ->
  ~ manager_panicked s /\ (halted local valid s -> exited s \/ failed_join local s \/ starving s).
Proof.
  intros local valid n jobs s Hc. destruct (calm_inv_calm _ _ _ _ _ Hc) as (H & _). split; [done|]. intros Hf.
  destruct (final_cases _ _ _ _ _ (calm_reachable _ _ _ _ _ Hc) Hf) as [A|[A|[A|A]]]; auto. done.
Qed.

(** ** C77: ctrl-c stops the evaluation: whatever the scheduler and the workers do after it, the program does not wait for
    the end of the evaluation. *)
Theorem C77_ctrl_c : forall local valid n jobs s s', reachable local valid n jobs s -> rtc (next local valid) (ctrl_c s) s' -> halted local valid s' ->
  exited s' \/ failed_join local s' \/ manager_panicked s'.
Proof.
  intros local valid n jobs s s' Hr Hn Hf. assert (Hr' : reachable local valid n jobs (ctrl_c s)) by (eapply REvent; [done|constructor]).
  pose proof (reachable_next _ _ _ _ _ _ Hr' Hn) as Hr2. destruct (final_cases _ _ _ _ _ Hr2 Hf) as [A|[A|[A|A]]]; auto.
  exfalso. eapply starving_not_stopping; [exact Hr2|exact A|]. eapply stopping_next; [apply stopping_ctrl_c|done].
Qed.

(** The UI thread is joined: it ended. *)
Lemma ui_over_step local valid s s' : step local valid s s' -> (forall r, cl s = CExit r -> ui s = false) -> (forall r, cl s' = CExit r -> ui s' = false).
Proof.
  intros H E.
  assert (L : forall r s r0, cl (leave r s) <> CExit r0) by (intros r0 s0 r1; destruct (leave_cl r0 s0) as [[A ->]|[->|[A ->]]]; done).
  stepcases H; flat; lv; try done; try (intros r0 A; by destruct (L _ _ _ A)).
  - destruct (manager_alive s); flat; [intros r0; congruence|intros r0 A; by destruct (L _ _ _ A)].
  - destruct (manager_alive s); (intros r0 A; by destruct (L _ _ _ A)).
  - destruct (manager_alive s || bool_decide (k = 0)); flat; [done|intros r0 A; by destruct (L _ _ _ A)].
  - destruct m; cbn [manager_msg]; [destruct valid; [destruct h|]|destruct h| |destruct h|destruct h]; exact E.
  - destruct m; exact E.
  - destruct m; exact E.
  - unfold ui_recv. flat. destruct m; [done|]. auto.
Qed.
Lemma ui_over : forall local valid n jobs s r, reachable local valid n jobs s -> cl s = CExit r -> ui s = false.
Proof.
  intros local valid n jobs s r Hr. revert r. induction Hr as [|s s' Hr IH Hs|s s' Hr IH Hs]; [done|by eapply ui_over_step|].
  eventcases Hs; [destruct (manager_alive s)|destruct (slot s && manager_alive s)]; exact IH.
Qed.

(** ** C77: at the end the UI handled all the messages that were sent to it, in order, and nothing else. *)
Theorem C77_ui : forall local valid n jobs s r, reachable local valid n jobs s -> cl s = CExit r ->
  ui s = false /\ sent s = shown s ++ [UStop] /\ UStop ∉ shown s /\ qu s = [].
Proof.
  intros local valid n jobs s r Hr Hc. pose proof (ui_over _ _ _ _ _ _ Hr Hc) as Hu. destruct (ui_inv_reachable _ _ _ _ _ Hr) as (H1 & H2 & H3). rewrite Hu in H2. destruct H2. auto.
Qed.
(** ** C77: at the end of a local run no thread of the executor is left: the scheduler, the worker manager, the workers. *)
Theorem C77_threads : forall valid n jobs s r, reachable true valid n jobs s -> cl s = CExit r -> executor_gone s.
Proof. intros valid n jobs s r Hr Hc. apply (gone_reachable _ _ _ _ Hr). by rewrite Hc. Qed.

(** ** C77: after a failure of the evaluation the program never ends with success. *)
Theorem C77_failure : forall local valid n jobs s s', reachable local valid n jobs s -> eval_failed s -> rtc (next local valid) s s' -> cl s' <> CExit OkEnd.
Proof.
  intros local valid n jobs s s' Hr Hf Hn. pose proof (phase_inv_reachable _ _ _ _ _ Hr) as HP.
  assert (F : fails s). { unfold fails, phase_inv in *. destruct Hf as [Hf|(Hs & r & Hf)]; rewrite Hf in *; [done|]. destruct HP as [HP _]. auto. }
  assert (F' : fails s'). { clear -F Hn. induction Hn as [|s s1 s' H1 _ IH]; [done|]. apply IH. by eapply fails_next. }
  unfold fails in F'. intros A. rewrite A in F'. done.
Qed.

(** ** C77 is false of a local run whose evaluation fails: if the DAG is valid it never ends, whatever happens: the handler of
    ctrl-c has a sender of the channel, the client manager waits for it. *)
Theorem C77_failed_refuted : forall n jobs s r s', reachable true true n jobs s -> slot s = true -> cl s = CJoin r -> rtc (next true true) s s' -> cl s' = CJoin r.
Proof.
  intros n jobs s r s' Hr Hs Hc Hn. induction Hn as [|s s1 s' H1 _ IH]; [done|].
  destruct (failed_stays true n jobs s s1 r eq_refl Hr Hs Hc H1) as [A1 A2]. apply IH; [|done|done].
  destruct H1 as [H1|H1]; [by eapply RStep|by eapply REvent].
Qed.
(** and if the client manager panicked: the executor is never told to exit. *)
Theorem C77_panic_refuted : forall valid n jobs s s', reachable true valid n jobs s -> manager_panicked s -> rtc (next true valid) s s' -> forall r, cl s' <> CExit r.
Proof.
  intros valid n jobs s s' Hr Hm Hn.
  assert (P : mg s = MPanicked /\ ui_phase (cl s) = false /\ (forall r, cl s <> CStopUI r)).
  { pose proof (exec_inv_reachable _ _ _ _ _ Hr) as [HX _]. pose proof (gone_reachable _ _ _ _ Hr) as HG. unfold manager_panicked in Hm. rewrite Hm in HX.
    assert (J : joined (cl s) = false). { destruct (joined (cl s)) eqn:E; [|done]. destruct (HG E) as (A & _). destruct HX as [_ HX]. discriminate HX. auto. }
    split_and!; [done|by destruct (cl s)|]. intros r E. by rewrite E in J. }
  assert (P' : mg s' = MPanicked /\ ui_phase (cl s') = false /\ (forall r, cl s' <> CStopUI r)).
  { clear Hm. induction Hn as [|s s1 s' H1 _ IH]; [done|]. destruct P as (P1 & P2 & P3). apply IH; [destruct H1 as [H1|H1]; [by eapply RStep|by eapply REvent]|]. by eapply panicked_stays. }
  destruct P' as (_ & P2 & _). intros r E. by rewrite E in P2.
Qed.

(** ** Concrete runs *)
(** The evaluation of a DAG of one execution with one file to send: it is done by the worker and the program ends with success. *)
Definition quiet_worker := Worker WIdle [] [] true true.
Lemma trace (local valid : bool) n jobs s : rtc (next local valid) (life_start n jobs) s -> reachable local valid n jobs s.
Proof. intros H. eapply reachable_next; [constructor|done]. Qed.
Tactic Notation "one_step" uconstr(c) := eapply rtc_l; [left; eapply c; try reflexivity; try (by apply not_elem_of_nil); try (cbn; lia); try (intros ?; split; [reflexivity|apply not_elem_of_nil]); try discriminate|]; try (match goal with |- rtc _ ?x _ => let y := eval vm_compute in x in change x with y end).
Example C77_run_example : exists s, reachable true true 1 1 s /\ cl s = CExit OkEnd /\ shown s = [UMessage 0; UMessage 1; UMessage 2] /\ ws s = [quiet_worker].
Proof.
  eexists. split; [apply trace|].
  { unfold life_start. cbn.
    one_step (StStart true true _ [UMessage 0]). { unfold messages. rewrite elem_of_list_singleton. done. }
    one_step (StManager true true _ true AEvaluate [] 1 true).
    one_step (StAsk true true _ None []).
    one_step (StManager true true _ true AProvide [] 0 true).
    one_step (StSched true true _ false false SEvaluate [SFile] [] [] []).
    one_step (StSched true true _ true false SFile [] [] [] []).
    one_step (StOut true true _ 0 _ GGet []).
    one_step (StSched true true _ true false SWorker [] [DNotify] [0] []).
    one_step (StBinder true true _ DNotify []).
    one_step (StNotify true true _ None [] [UMessage 1]). { unfold messages. rewrite elem_of_list_singleton. done. }
    one_step (StWm true true _ (EJob 0) []).
    one_step (StWorker true true _ 0 _ FWork []).
    one_step (StJobEnd true true _ 0).
    one_step (StOut true true _ 0 _ GDone []).
    one_step (StSched true true _ true false SWorker [] [DDone] [] []).
    one_step (StBinder true true _ DDone []).
    one_step (StDone true true _ None [] 1 []).
    one_step (StManager true true _ true AAsk [] 0 true).
    one_step (StFile true true _ (Some 1) [] []).
    one_step (StLoopEnd true true).
    one_step (StTake true true).
    one_step (StPost true true _ OkEnd [UMessage 2]). { unfold messages. rewrite elem_of_list_singleton. done. }
    one_step (StManagerEnd true true _ true).
    one_step (StSched true true _ true true SDisconnect [SExit] [] [] []).
    one_step (StSched true true _ false true SExit [] [] [] []).
    one_step (StWm true true _ EExit []).
    one_step (StWorker true true _ 0 _ FFiles [FExit]).
    one_step (StWorker true true _ 0 _ FExit []).
    one_step (StGone true true _ 0).
    one_step (StOutEnd true true _ 0 _ GGet []).
    one_step (StJoin true true _ OkEnd).
    one_step (StStopUI true true _ OkEnd).
    one_step (StUi true true _ (UMessage 0) [UMessage 1; UMessage 2; UStop]).
    one_step (StUi true true _ (UMessage 1) [UMessage 2; UStop]).
    one_step (StUi true true _ (UMessage 2) [UStop]).
    one_step (StUi true true _ UStop []).
    one_step (StJoinUI true true _ OkEnd).
    apply rtc_refl. }
  cbn. done.
Qed.

Tactic Notation "one_event" uconstr(c) := eapply rtc_l; [right; eapply c; try reflexivity|]; try (match goal with |- rtc _ ?x _ => let y := eval vm_compute in x in change x with y end).
Lemma steps_next local valid s s' : rtc (step local valid) s s' -> rtc (next local valid) s s'.
Proof. induction 1 as [|x y z Hs _ IH]; [apply rtc_refl|]. eapply rtc_l; [left; exact Hs|exact IH]. Qed.
(** A callback fails: the program never ends. *)
Theorem C77_callback_refuted : exists s, reachable true true 1 1 s /\ eval_failed s /\ forall s', rtc (next true true) s s' -> ~ exited s'.
Proof.
  assert (H : exists s, reachable true true 1 1 s /\ cl s = CJoin ErrEnd /\ slot s = true).
  { eexists. split; [apply trace|].
    { unfold life_start. cbn.
      one_step (StStart true true _ []).
      one_step (StManager true true _ true AEvaluate [] 0 true).
      one_step (StSched true true _ false false SEvaluate [] [DNotify] [] []).
      one_step (StBinder true true _ DNotify []).
      one_step (StFail true true _ None BNotify [] ErrEnd []).
      one_step (StStop true true).
      apply rtc_refl. }
    done. }
  destruct H as (s & Hr & Hc & Hs). exists s. split_and!; [done|right; eauto|]. intros s' Hn. pose proof (C77_failed_refuted _ _ _ _ _ Hr Hs Hc Hn) as E.
  intros [[r A]|A]; congruence.
Qed.
(** Ctrl-c before the evaluation is sent, or while the files are sent: the client manager panics. *)
Theorem C77_early_ctrl_c_refuted : exists s, reachable true true 1 1 s /\ cl s = CStart /\
  exists s', rtc (step true true) (ctrl_c s) s' /\ manager_panicked s' /\ forall s2, rtc (next true true) s' s2 -> forall r, cl s2 <> CExit r.
Proof.
  exists (life_start 1 1). split_and!; [constructor|done|].
  assert (H : exists s', rtc (step true true) (ctrl_c (life_start 1 1)) s' /\ manager_panicked s').
  { eexists. split.
    { eapply rtc_l; [eapply (StStart true true _ []); try reflexivity; apply not_elem_of_nil|].
      match goal with |- rtc _ ?x _ => let y := eval vm_compute in x in change x with y end.
      eapply rtc_l; [eapply (StManager true true _ true AStop [AEvaluate] 0 true); reflexivity|].
      eapply rtc_l; [eapply (StManager true true _ false AEvaluate [] 0 true); reflexivity|].
      apply rtc_refl. }
    done. }
  destruct H as (s' & Hn & Hm). exists s'. split_and!; [done|done|]. intros s2 Hn2. eapply C77_panic_refuted; [|exact Hm|exact Hn2].
  eapply reachable_next; [eapply (REvent _ _ _ _ _ _ (RStart _ _ _ _)), EvCtrlC|by apply steps_next].
Qed.
Theorem C77_files_ctrl_c_refuted : exists s, reachable true true 1 1 s /\ cl s = CEval None /\ AEvaluate ∉ qa s /\
  exists s', rtc (step true true) (ctrl_c s) s' /\ manager_panicked s' /\ forall s2, rtc (next true true) s' s2 -> forall r, cl s2 <> CExit r.
Proof.
  assert (H : exists s, reachable true true 1 1 s /\ cl s = CEval None /\ qa s = [] /\ qb s = [BAsk] /\ slot s = true /\ mg s = MRun true).
  { eexists. split; [apply trace|].
    { unfold life_start. cbn.
      one_step (StStart true true _ []).
      one_step (StManager true true _ true AEvaluate [] 1 true).
      apply rtc_refl. }
    done. }
  destruct H as (s & Hr & Hc & Hqa & Hqb & Hs & Hm). exists s. split_and!; [done|done|rewrite Hqa; apply not_elem_of_nil|].
  assert (E : ctrl_c s = set_qa [AStop] s) by (unfold ctrl_c, manager_alive; by rewrite Hs, Hm, Hqa).
  assert (H : exists s', rtc (step true true) (ctrl_c s) s' /\ manager_panicked s').
  { rewrite E. eexists. split.
    { eapply rtc_l. { pose proof (StAsk true true (set_qa [AStop] s) None [] Hc ltac:(done) Hqb) as X. unfold manager_alive in X. cbn in X. rewrite Hm in X. exact X. }
      eapply rtc_l; [eapply (StManager true true _ true AStop [AProvide] 0 true); [exact Hm|reflexivity]|].
      eapply rtc_l; [eapply (StManager true true _ false AProvide [] 0 true); reflexivity|].
      apply rtc_refl. }
    done. }
  destruct H as (s' & Hn & Hp). exists s'. split_and!; [done|done|]. intros s2 Hn2. eapply C77_panic_refuted; [|exact Hp|exact Hn2].
  eapply reachable_next; [eapply (REvent _ _ _ _ _ _ Hr), EvCtrlC|by apply steps_next].
Qed.
(** The server refuses the DAG: depending on the schedule the program ends with success, with an error, with a panic. *)
Theorem C77_error_refuted :
  (exists s, calm true false 1 1 s /\ cl s = CExit OkEnd) /\ (exists s, calm true false 1 1 s /\ cl s = CExit ErrEnd) /\ (exists s, calm true false 1 1 s /\ cl s = CExit PanicEnd).
Proof.
  assert (T : forall s s', calm true false 1 1 s -> rtc (step true false) s s' -> calm true false 1 1 s').
  { intros s s' Hc H. induction H as [|x y z Hs _ IH]; [done|]. apply IH. by eapply CalmStep. }
  assert (Tail : forall s r, calm true false 1 1 s -> s = Life (CJoin r) (slot s) PJoined (qa s) MEnded [] (SchRun false false) 1 [SDisconnect; SExit] [] true [] [Worker WIdle [] [GGet] false false] true [] [] [] ->
    exists s', calm true false 1 1 s' /\ cl s' = CExit r).
  { intros s r Hc E. destruct s. cbn in E. injection E as -> -> -> -> -> -> -> -> -> -> -> -> -> -> ->.
    eexists. split; [eapply T; [exact Hc|]|].
    { eapply rtc_l; [eapply (StSched true false _ false false SDisconnect [SExit] [] [] []); try reflexivity; try (cbn; lia); intros _; split; [done|apply not_elem_of_nil]|].
      eapply rtc_l; [eapply (StSched true false _ false false SExit [] [] [] []); try reflexivity; try (cbn; lia); intros _; split; [done|apply not_elem_of_nil]|].
      eapply rtc_l; [eapply (StWm true false _ EExit []); reflexivity|].
      eapply rtc_l; [eapply (StWorker true false _ 0 _ FExit []); reflexivity|].
      eapply rtc_l; [eapply (StGone true false _ 0); reflexivity|].
      eapply rtc_l; [eapply (StJoin true false _ r); reflexivity|].
      eapply rtc_l; [eapply (StStopUI true false _ r); reflexivity|].
      eapply rtc_l; [eapply (StUi true false _ UStop []); reflexivity|].
      eapply rtc_l; [eapply (StJoinUI true false _ r); reflexivity|].
      apply rtc_refl. }
    done. }
  assert (B : exists s, calm true false 1 1 s /\ s = Life (CEval None) true PRun [] (MLeave true) [BError] (SchRun false false) 1 [] [] true [] [Worker WIdle [] [GGet] false false] true [] [] []).
  { eexists. split; [|reflexivity]. eapply T; [apply CalmStart|].
    eapply rtc_l; [eapply (StStart true false _ []); try reflexivity; apply not_elem_of_nil|].
    eapply rtc_l; [eapply (StManager true false _ true AEvaluate [] 0 true); reflexivity|]. apply rtc_refl. }
  destruct B as (s & Hc & ->). split_and!.
  - eapply (Tail (Life (CJoin OkEnd) false PJoined [AStop] MEnded [] (SchRun false false) 1 [SDisconnect; SExit] [] true [] [Worker WIdle [] [GGet] false false] true [] [] [])); [|reflexivity].
    eapply T; [exact Hc|].
    eapply rtc_l; [eapply (StError true false _ None []); try reflexivity; done|].
    eapply rtc_l; [eapply (StTake true false); reflexivity|].
    eapply rtc_l; [eapply (StPost true false _ OkEnd []); [reflexivity|apply not_elem_of_nil]|].
    eapply rtc_l; [eapply (StManagerLeave true false _ true); reflexivity|]. apply rtc_refl.
  - eapply (Tail (Life (CJoin ErrEnd) true PJoined [] MEnded [] (SchRun false false) 1 [SDisconnect; SExit] [] true [] [Worker WIdle [] [GGet] false false] true [] [] [])); [|reflexivity].
    eapply T; [exact Hc|].
    eapply rtc_l; [eapply (StManagerLeave true false _ true); reflexivity|].
    eapply rtc_l; [eapply (StError true false _ None []); try reflexivity; done|].
    eapply rtc_l; [eapply (StStop true false); reflexivity|]. apply rtc_refl.
  - eapply (Tail (Life (CJoin PanicEnd) true PJoined [] MEnded [] (SchRun false false) 1 [SDisconnect; SExit] [] true [] [Worker WIdle [] [GGet] false false] true [] [] [])); [|reflexivity].
    assert (Hc2 : calm true false 1 1 (Life (CEval None) true PRun [] MEnded [BError] (SchRun false false) 1 [SDisconnect; SExit] [] true [] [Worker WIdle [] [GGet] false false] true [] [] [])).
    { pose proof (fun s' => CalmStep _ _ _ _ _ s' Hc) as X. refine (X _ _). match goal with |- step _ _ ?x _ => exact (StManagerLeave true false x true eq_refl) end. }
    pose proof (CalmTick _ _ _ _ _ Hc2 eq_refl) as Hc3. pose proof (fun s' => CalmStep _ _ _ _ _ s' Hc3) as X. refine (X _ _). match goal with |- step _ _ ?x _ => exact (StError true false x None [] eq_refl ltac:(done) eq_refl) end.
Qed.

(** Ctrl-c during an evaluation: a run of the kind of C77_calm. *)
Example C77_ctrl_c_example : exists s, calm true true 1 1 s /\ calm_moment s /\ cl s = CEval None /\ exists s', rtc (step true true) (ctrl_c s) s' /\ cl s' = CExit OkEnd.
Proof.
  exists (Life (CEval None) true PRun [] (MRun true) [] (SchRun true false) 0 [] [] true [] [Worker WBusy [] [] false false] true [] [] []). split_and!.
  - assert (T : forall s s', calm true true 1 1 s -> rtc (step true true) s s' -> calm true true 1 1 s').
    { intros s s' Hc H. induction H as [|x y z Hs _ IH]; [done|]. apply IH. by eapply CalmStep. }
    eapply T; [apply CalmStart|].
    eapply rtc_l; [eapply (StStart true true _ []); try reflexivity; apply not_elem_of_nil|].
    eapply rtc_l; [eapply (StManager true true _ true AEvaluate [] 0 true); reflexivity|].
    eapply rtc_l; [eapply (StSched true true _ false false SEvaluate [] [] [0] []); try reflexivity; try (cbn; lia); done|].
    eapply rtc_l; [eapply (StWm true true _ (EJob 0) []); reflexivity|].
    eapply rtc_l; [eapply (StWorker true true _ 0 _ FWork []); reflexivity|].
    eapply rtc_l; [eapply (StOut true true _ 0 _ GGet []); [reflexivity|reflexivity|done]|].
    eapply rtc_l; [eapply (StSched true true _ true false SWorker [] [] [] []); try reflexivity; try (cbn; lia); done|].
    apply rtc_refl.
  - split; apply not_elem_of_nil.
  - done.
  - eexists. split.
    { eapply rtc_l; [eapply (StManager true true _ true AStop [] 0 true); reflexivity|].
      eapply rtc_l; [eapply (StSched true true _ true false SDisconnect [] [] [] [0]); try reflexivity; try (cbn; lia); done|].
      eapply rtc_l; [eapply (StBinder true true _ DDone []); reflexivity|].
      eapply rtc_l; [eapply (StDone true true _ None [] 0 []); try reflexivity; [done|apply not_elem_of_nil]|].
      match goal with |- rtc _ ?x _ => let y := eval vm_compute in x in change x with y end.
      eapply rtc_l; [eapply (StLoopEnd true true); reflexivity|].
      eapply rtc_l; [eapply (StTake true true); reflexivity|].
      eapply rtc_l; [eapply (StPost true true _ OkEnd []); [reflexivity|apply not_elem_of_nil]|].
      eapply rtc_l; [eapply (StManagerEnd true true _ false); reflexivity|].
      match goal with |- rtc _ ?x _ => let y := eval vm_compute in x in change x with y end.
      eapply rtc_l; [eapply (StSched true true _ false false SExit [] [] [] []); try reflexivity; try (cbn; lia); intros _; split; [done|apply not_elem_of_nil]|].
      match goal with |- rtc _ ?x _ => let y := eval vm_compute in x in change x with y end.
      eapply rtc_l; [eapply (StWm true true _ (EKill 0) [EExit]); reflexivity|].
      eapply rtc_l; [eapply (StWm true true _ EExit []); reflexivity|].
      match goal with |- rtc _ ?x _ => let y := eval vm_compute in x in change x with y end.
      eapply rtc_l; [eapply (StWorker true true _ 0 _ FKill [FExit]); reflexivity|].
      eapply rtc_l; [eapply (StWorker true true _ 0 _ FExit []); reflexivity|].
      match goal with |- rtc _ ?x _ => let y := eval vm_compute in x in change x with y end.
      eapply rtc_l; [eapply (StJobEnd true true _ 0); reflexivity|].
      eapply rtc_l; [eapply (StJobLeft true true _ 0); reflexivity|].
      eapply rtc_l; [eapply (StGone true true _ 0); reflexivity|].
      match goal with |- rtc _ ?x _ => let y := eval vm_compute in x in change x with y end.
      eapply rtc_l; [eapply (StJoin true true _ OkEnd); reflexivity|].
      eapply rtc_l; [eapply (StStopUI true true _ OkEnd); reflexivity|].
      eapply rtc_l; [eapply (StUi true true _ UStop []); reflexivity|].
      eapply rtc_l; [eapply (StJoinUI true true _ OkEnd); reflexivity|].
      apply rtc_refl. }
    done.
Qed.

Print Assumptions C77_no_endless.
Print Assumptions C77_end_partial.
Print Assumptions C77_calm.
Print Assumptions C77_ctrl_c.
Print Assumptions C77_ui.
Print Assumptions C77_threads.
Print Assumptions C77_failure.
Print Assumptions C77_failed_refuted.
Print Assumptions C77_panic_refuted.
Print Assumptions C77_callback_refuted.
Print Assumptions C77_early_ctrl_c_refuted.
Print Assumptions C77_files_ctrl_c_refuted.
Print Assumptions C77_error_refuted.
