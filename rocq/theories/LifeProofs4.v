(** * LifeProofs4: the end of the run, for C77 *)
From stdpp Require Import base list relations.
From Verif Require Import LifeModel LifeSpec LifeProofs LifeProofs2 LifeProofs3.

(** ** The UI *)
Definition ui_phase (c : client_phase) : bool := match c with CJoinUI _ | CExit _ => true | _ => false end.
Definition ui_inv (s : life) : Prop :=
  UStop ∉ shown s /\
  (if ui s then sent s = shown s ++ qu s else qu s = [] /\ sent s = shown s ++ [UStop]) /\
  (if ui_phase (cl s) then exists l, sent s = l ++ [UStop] /\ UStop ∉ l else UStop ∉ sent s).
Lemma ui_inv_same s s' : ui_phase (cl s') = ui_phase (cl s) -> ui s' = ui s -> qu s' = qu s -> shown s' = shown s -> sent s' = sent s -> ui_inv s -> ui_inv s'.
Proof. intros E1 E2 E3 E4 E5. unfold ui_inv. by rewrite E1, E2, E3, E4, E5. Qed.
Lemma ui_inv_send l s : ui_phase (cl s) = false -> UStop ∉ l -> ui_inv s -> ui_inv (ui_send l s).
Proof.
  intros Hc Hl (H1 & H2 & H3). unfold ui_inv. flat. rewrite Hc in *. destruct (ui s).
  - split_and!; [done|by rewrite H2, app_assoc|]. by rewrite not_elem_of_app.
  - exfalso. destruct H2 as [_ H2]. apply H3. rewrite H2. apply elem_of_app. right. apply elem_of_list_here.
Qed.
Lemma ui_phase_leave r s : ui_phase (cl (leave r s)) = false.
Proof. destruct (leave_cl r s) as [[A ->]|[->|[A ->]]]; done. Qed.
Lemma ui_inv_leave r s : ui_phase (cl s) = false -> ui_inv s -> ui_inv (leave r s).
Proof. intros H. apply ui_inv_same; lv; try done. by rewrite ui_phase_leave. Qed.
Lemma ui_inv_step local valid s s' : step local valid s s' -> ui_inv s -> ui_inv s'.
Proof.
  intros H E.
  assert (S : forall s', ui_phase (cl s') = ui_phase (cl s) -> ui s' = ui s -> qu s' = qu s -> shown s' = shown s -> sent s' = sent s -> ui_inv s') by (intros; by eapply ui_inv_same).
  stepcases H; try (by apply S).
  - apply ui_inv_send; [done|done|]. apply S; flat; try done. by rewrite Hc.
  - apply ui_inv_send; [apply ui_phase_leave|done|]. apply ui_inv_leave; [by rewrite Hc|done].
  - apply ui_inv_leave; [by rewrite Hc|done].
  - destruct (manager_alive s); [by apply S|]. apply ui_inv_leave; [flat; by rewrite Hc|]. by apply S.
  - apply ui_inv_send; [done|done|]. apply S; flat; try done. by rewrite Hc.
  - apply ui_inv_send; [flat; by rewrite Hc|done|]. by apply S.
  - destruct (manager_alive s); (apply ui_inv_leave; [flat; by rewrite Hc|]; by apply S).
  - apply ui_inv_send; [|done|]; (destruct (manager_alive s || bool_decide (k = 0)); [|try apply ui_phase_leave]).
    + done.
    + apply S; flat; try done. by rewrite Hc.
    + apply ui_inv_leave; [flat; by rewrite Hc|]. by apply S.
  - apply ui_inv_leave; [by rewrite Hc|done].
  - apply ui_inv_send; [apply ui_phase_leave|done|]. apply ui_inv_leave; [flat; by rewrite Hc|]. by apply S.
  - apply S; flat; try done. by rewrite Hc.
  - destruct (slot s && manager_alive s); apply S; flat; try done; by rewrite Hc.
  - apply ui_inv_send; [done|done|]. apply S; flat; try done. by rewrite Hc.
  - apply S; flat; try done. by rewrite Hc.
  - destruct E as (E1 & E2 & E3). unfold ui_inv. flat. rewrite Hc in E3. cbn [ui_phase] in *. split_and!; [done| |by exists (sent s)].
    destruct (ui s); [by rewrite E2, app_assoc|]. exfalso. destruct E2 as [_ E2]. apply E3. rewrite E2. apply elem_of_app. right. apply elem_of_list_here.
  - apply S; flat; try done. by rewrite Hc.
  - apply S; destruct m; cbn [manager_msg]; (destruct valid, h, found || idtac); done.
  - apply S; destruct m; done.
  - apply S; destruct m; done.
  - destruct E as (E1 & E2 & E3). rewrite Hu, Hq in E2. unfold ui_inv, ui_recv. flat. destruct m as [n|].
    + rewrite Hu. split_and!; [|by rewrite <- app_assoc|done]. rewrite not_elem_of_app, not_elem_of_cons. split_and!; [done|done|apply not_elem_of_nil].
    + destruct (ui_phase (cl s)); [|exfalso; apply E3; rewrite E2; apply elem_of_app; right; apply elem_of_list_here].
      assert (Hq0 : q = []).
      { destruct E3 as (l & E3 & E4). destruct q as [|y q] using rev_ind; [done|]. exfalso. apply E4. rewrite E2 in E3.
        change (shown s ++ UStop :: q ++ [y]) with (shown s ++ (UStop :: q) ++ [y]) in E3. rewrite app_assoc in E3. apply app_inj_tail in E3 as [<- _]. apply elem_of_app. right. apply elem_of_list_here. }
      subst q. split_and!; [done|done|done|]. exact E3.
Qed.
Lemma ui_inv_event s s' : event s s' -> ui_inv s -> ui_inv s'.
Proof. intros H. eventcases H; [destruct (manager_alive s)|destruct (slot s && manager_alive s)]; exact id. Qed.
Lemma ui_inv_reachable local valid n jobs s : reachable local valid n jobs s -> ui_inv s.
Proof. induction 1; eauto using ui_inv_step, ui_inv_event. split_and!; cbn; try done; apply not_elem_of_nil. Qed.

(** ** The workers while the scheduler is there *)
Definition alive_inv (s : life) : Prop :=
  (EExit ∈ qe s -> sc s = SchEnded) /\ (wm s = false -> sc s = SchEnded) /\
  (forall w x, ws s !! w = Some x -> FExit ∈ w_in x \/ w_exiting x = true \/ w_gone x = true -> wm s = false).
Lemma alive_ws s l : alive_inv s -> (forall w x, l !! w = Some x -> FExit ∈ w_in x \/ w_exiting x = true \/ w_gone x = true -> wm s = false) -> alive_inv (set_ws l s).
Proof. by intros (H1 & H2 & _) H3. Qed.
Lemma alive_insert s w x y : alive_inv s -> ws s !! w = Some x ->
  (FExit ∈ w_in y \/ w_exiting y = true \/ w_gone y = true -> FExit ∈ w_in x \/ w_exiting x = true \/ w_gone x = true) -> alive_inv (set_ws (<[w := y]> (ws s)) s).
Proof.
  intros (H1 & H2 & H3) Hw Hy. apply alive_ws; [done|]. intros w' z Hz. apply list_lookup_insert_Some in Hz as [(<- & <- & _)|[_ Hz]]; [|by eauto].
  intros A. eapply H3; eauto.
Qed.
Lemma alive_inv_same s s' : qe s' = qe s -> sc s' = sc s -> wm s' = wm s -> ws s' = ws s -> alive_inv s -> alive_inv s'.
Proof. intros E1 E2 E3 E4. unfold alive_inv. by rewrite E1, E2, E3, E4. Qed.
Lemma alive_inv_step local valid s s' : step local valid s s' -> alive_inv s -> alive_inv s'.
Proof.
  intros H E. pose proof E as (H1 & H2 & H3).
  assert (S : forall s', qe s' = qe s -> sc s' = sc s -> wm s' = wm s -> ws s' = ws s -> alive_inv s') by (intros; by eapply alive_inv_same).
  stepcases H; try (by apply S); try (apply S; flat; by lv).
  - destruct (manager_alive s); apply S; flat; by lv.
  - destruct (manager_alive s); apply S; flat; by lv.
  - destruct (manager_alive s || bool_decide (k = 0)); apply S; flat; by lv.
  - destruct (slot s && manager_alive s); by apply S.
  - destruct m; cbn [manager_msg]; [destruct valid; [destruct h|]|destruct h| |destruct h|destruct h]; by apply S.
  - rewrite Hs in *. assert (m = SExit \/ m = SDisconnect \/ sched_msg m kn dn ns js ks (set_qc q s) = set_sched (SchRun (kn || bool_decide (m = SEvaluate)) (dn || bool_decide (DDone ∈ ns)))
        (set_work (work s - length js) (set_qd (qd s ++ ns) (set_qe (qe s ++ map EJob js) (set_qc q s))))) as [->|[->|Es]] by (destruct m; auto).
    + cbn [sched_msg]. unfold alive_inv. flat. by split_and!.
    + cbn [sched_msg]. unfold alive_inv. flat. split_and!; [|intros A; by specialize (H2 A)|done].
      intros A. apply elem_of_app in A as [A|A]; [by specialize (H1 A)|]. by apply map_EKill_exit in A.
    + rewrite Es. unfold alive_inv. flat. split_and!; [|intros A; by specialize (H2 A)|done].
      intros A. apply elem_of_app in A as [A|A]; [by specialize (H1 A)|]. by apply map_EJob_exit in A.
  - assert (Hsend : forall f w, f <> FExit -> forall w' x, alter (fun x => Worker (w_phase x) (w_in x ++ [f]) (w_out x) (w_exiting x) (w_gone x)) w (ws s) !! w' = Some x ->
        FExit ∈ w_in x \/ w_exiting x = true \/ w_gone x = true -> wm s = false).
    { intros f w Hf w' x Hx. destruct (decide (w = w')) as [<-|Hw']; [|rewrite list_lookup_alter_ne in Hx by done; eauto]. rewrite list_lookup_alter in Hx. apply fmap_Some in Hx as (y & Hy & ->).
      cbn [w_in w_exiting w_gone]. intros [A|A]; [|eapply H3; eauto]. apply elem_of_app in A as [A|A]; [eapply H3; eauto|]. apply elem_of_list_singleton in A. congruence. }
    rewrite Hq in H1. destruct m as [w|w|]; cbn [wm_msg]; unfold worker_send, alive_inv; flat; split_and!; try done.
    + intros A. apply H1, elem_of_list_further, A.
    + by apply Hsend.
    + intros A. apply H1, elem_of_list_further, A.
    + by apply Hsend.
    + intros A. apply H1, elem_of_list_further, A.
    + intros _. apply H1, elem_of_list_here.
  - eapply alive_insert; [done|done|]. rewrite Hq. unfold pop_in. rewrite Hq, skipn_cons, drop_0.
    destruct m; cbn [worker_msg w_in w_exiting w_gone w_phase]; [| | |destruct (w_phase x); cbn [w_in w_exiting w_gone]]; rewrite elem_of_cons; tauto.
  - eapply alive_insert; [done|done|]. cbn [w_in w_exiting w_gone]. tauto.
  - eapply alive_insert; [done|done|]. cbn [w_in w_exiting w_gone]. tauto.
  - eapply alive_insert; [done|done|]. cbn [w_in w_exiting w_gone]. tauto.
  - eapply (alive_inv_same (set_ws (<[w := out_msg m x]> (ws s)) s)); try done. eapply alive_insert; [done|done|]. unfold out_msg. cbn [w_in w_exiting w_gone]. destruct m; [tauto|].
    rewrite elem_of_app, elem_of_list_singleton. intuition congruence.
  - eapply alive_insert; [done|done|]. cbn [w_in w_exiting w_gone out_msg]. destruct m; [tauto|]. rewrite elem_of_app, elem_of_list_singleton. intuition congruence.
Qed.
Lemma alive_inv_event s s' : event s s' -> alive_inv s -> alive_inv s'.
Proof. intros H. eventcases H; [destruct (manager_alive s)|destruct (slot s && manager_alive s)]; exact id. Qed.
Lemma alive_inv_reachable local valid n jobs s : reachable local valid n jobs s -> alive_inv s.
Proof.
  induction 1; eauto using alive_inv_step, alive_inv_event. split_and!; cbn; [intros A; by apply elem_of_nil in A|done|].
  intros w x Hx. apply lookup_replicate in Hx as [-> _]. cbn. intros [A|[A|A]]; [by apply elem_of_nil in A|done|done].
Qed.

(** ** The end *)
Lemma final_cases local valid n jobs s : reachable local valid n jobs s -> halted local valid s ->
  exited s \/ failed_join local s \/ manager_panicked s \/ starving s.
Proof.
  intros Hr Hf. pose proof (exec_inv_reachable _ _ _ _ _ Hr) as HX. pose proof (phase_inv_reachable _ _ _ _ _ Hr) as HP.
  pose proof (eval_inv_reachable _ _ _ _ _ Hr) as (E1 & E2 & E3). pose proof (ui_inv_reachable _ _ _ _ _ Hr) as HU. pose proof (alive_inv_reachable _ _ _ _ _ Hr) as (L1 & L2 & L3).
  assert (Hd : qd s = []) by (by eapply stuck_qd). unfold phase_inv in HP.
  assert (Hml : forall h, mg s <> MLeave h) by (intros h Hm; by eapply Hf, StManagerLeave).
  assert (Hmr : forall h, mg s = MRun h -> qa s = [] /\ client_sender_alive s = true).
  { intros h Hm. assert (qa s = []) as Hq. { destruct (qa s) as [|a q] eqn:Eq; [done|]. exfalso. eapply Hf, (StManager _ _ _ _ _ _ 0 true); done. }
    split; [done|]. destruct (client_sender_alive s) eqn:Es; [done|]. exfalso. by eapply Hf, StManagerEnd. }
  assert (Hw : forall w x, ws s !! w = Some x -> w_out x = []).
  { intros w x Hx. destruct (w_out x) as [|m q] eqn:Eo; [done|]. exfalso. destruct (sc s) eqn:Es; [eapply Hf, StOut; try done; by rewrite Es|by eapply Hf, StOutEnd]. }
  destruct (cl s) as [|m|r| |r|r|r|r|] eqn:Hc.
  - exfalso. eapply Hf, (StStartFail _ _ _ ErrEnd []); try done. apply not_elem_of_nil.
  - right. right. destruct (mg s) as [h|h| |] eqn:Hm; [|by destruct (Hml h)| |by left].
    + right. destruct (Hmr h eq_refl) as [Hqa _]. assert (Hm0 : m <> Some 0) by (intros ->; by eapply Hf, StLoopEnd).
      assert (Hqb : qb s = []).
      { destruct (qb s) as [|b q] eqn:Eq; [done|]. exfalso. eapply Hf, (StFail _ _ _ _ _ _ ErrEnd []); try done. apply not_elem_of_nil. }
      assert (Hsc : exists kn dn, sc s = SchRun kn dn).
      { destruct (sc s) eqn:Es; [eauto|]. destruct HX as [[_ HX] _]. rewrite Hm in HX. discriminate HX. auto. }
      destruct Hsc as (kn & dn & Hsc). assert (Hqc : qc s = []) by (by eapply stuck_qc).
      destruct (E3 m eq_refl) as (A1 & A2 & A3 & A4). unfold told, pend, knows, done_sent in *. rewrite Hqa, Hqb, Hqc, Hd, Hsc in *.
      destruct m as [k|].
      { exfalso. destruct (A4 k h eq_refl eq_refl) as [A|A]; [|by apply elem_of_nil in A]. cbn in A. assert (k = 0) by lia. congruence. }
      assert (Ht : ~ (None (A:=nat) <> None \/ DDone ∈ [] \/ BDone ∈ [])) by (rewrite !elem_of_nil; intros [A|[A|A]]; done).
      assert (dn = false) as -> by (destruct dn; [by destruct (Ht (A3 eq_refl))|done]).
      destruct h; [|exfalso; destruct (A2 eq_refl) as [A|[A|(q1 & q2 & A & _)]]; [by apply elem_of_nil in A|by apply Ht|by destruct q1]].
      destruct (A1 eq_refl) as [A|[A| ->]]; [by apply elem_of_nil in A|by apply elem_of_nil in A|].
      assert (Hwm : wm s = true) by (destruct (wm s); [done|]; by specialize (L2 eq_refl)).
      split_and!; try done.
      { destruct (qe s) as [|e q] eqn:Eq; [done|]. exfalso. by eapply Hf, StWm. }
      intros w x Hx. destruct HX as (_ & _ & X3). destruct (X3 _ _ Hx) as (X4 & X5 & X6).
      assert (He : w_exiting x = false). { destruct (w_exiting x) eqn:Ee; [|done]. rewrite (L3 _ _ Hx) in Hwm; [done|auto]. }
      assert (Hg : w_gone x = false). { destruct (w_gone x) eqn:Ee; [|done]. rewrite (L3 _ _ Hx) in Hwm; [done|auto]. }
      assert (Hin : w_in x = []). { destruct (w_in x) as [|f q] eqn:Ef; [done|]. exfalso. by eapply Hf, StWorker. }
      pose proof (Hw _ _ Hx) as Ho. destruct (w_phase x) eqn:Ep.
      * destruct x. cbn in *. by subst.
      * exfalso. by eapply Hf, StJobEnd.
      * exfalso. rewrite Ho, Hin, He, Hsc in X6. destruct (X6 eq_refl) as [A|[A|[A|A]]]; try done; by apply elem_of_nil in A.
    + exfalso. pose proof (stuck_ended _ _ _ Hf HX Hm) as He. destruct (qb s) as [|b q] eqn:Eq.
      * destruct (decide (m = Some 0)) as [->|Hm0]; [by eapply Hf, StLoopEnd|]. eapply Hf, StClosed; try done; [|unfold manager_alive; by rewrite Hm]. unfold executor_ended in He. by apply andb_true_iff in He as [He _].
      * destruct (decide (m = Some 0)) as [->|Hm0]; [by eapply Hf, StLoopEnd|]. eapply Hf, (StFail _ _ _ _ _ _ ErrEnd []); try done. apply not_elem_of_nil.
  - exfalso. destruct HP as (_ & _ & HP). destruct r; [by eapply Hf, StTake|by eapply Hf, StStop|done].
  - exfalso. eapply Hf, (StPost _ _ _ OkEnd []); [done|]. apply not_elem_of_nil.
  - destruct local eqn:El; [|exfalso; eapply Hf, StJoin; done].
    destruct (mg s) as [h|h| |] eqn:Hm; [|by destruct (Hml h)| |by right; right; left].
    + destruct (Hmr h eq_refl) as [Hqa Ha]. right. left. unfold client_sender_alive in Ha. rewrite Hc in Ha. destruct HP as [HP1 HP2]. rewrite HP2 in Ha. cbn in Ha. split_and!; [done|done|]. exists r. auto.
    + exfalso. eapply Hf, StJoin; [done|]. intros _. by eapply stuck_ended.
  - exfalso. by eapply Hf, StStopUI.
  - exfalso. destruct HU as (U1 & U2 & U3). rewrite Hc in U3. cbn in U3. destruct (ui s) eqn:Eu; [|by eapply Hf, StJoinUI].
    destruct (qu s) as [|u q] eqn:Eq; [|by eapply Hf, StUi]. rewrite app_nil_r in U2. destruct U3 as (l & U3 & _). apply U1. rewrite <- U2, U3. apply elem_of_app. right. apply elem_of_list_here.
  - left. left. by exists r.
  - left. by right.
Qed.
