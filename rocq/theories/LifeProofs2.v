(** * LifeProofs2: invariants for C77 *)
From Verif Require Import LifeModel LifeProofs.
From stdpp Require Import base list.

Ltac stepcases H :=
  destruct H as [s l Hc Ha Hl|s r l Hc Hr Hl|s Hc|s m q Hc Hm Hq|s m q l Hc Hm Hq Hl|s m q l Hc Hm Hq Hl|s m q Hc Hm Hq|s m q k l Hc Hm Hq Hl|s m Hc Hm Hq Hr Ha|s m b q r l Hc Hm Hq Hr Hl
    |s Hc|s Hc|s r l Hc Hl|s r Hc He|s r Hc|s r Hc Hu
    |s h m q k found Hg Hq|s h Hg Hq Ha|s h Hg|s kn dn m q ns js ks Hs Hq Hj Hn|s d q Hq|s m q Hw Hq
    |s w x m q Hw Hq He|s w x Hw Hp|s w x Hw Hp He|s w x Hw Hp He Hg|s w x m q Hw Hq Hs|s w x m q Hw Hq Hs|s m q Hu Hq].
Ltac eventcases H := destruct H as [s Hp|s]; unfold tick, ctrl_c in *.

(** ** [leave] *)
Lemma leave_qa r s : qa (leave r s) = qa s. Proof. unfold leave. by destruct (poller s), r. Qed.
Lemma leave_mg r s : mg (leave r s) = mg s. Proof. unfold leave. by destruct (poller s), r. Qed.
Lemma leave_qb r s : qb (leave r s) = qb s. Proof. unfold leave. by destruct (poller s), r. Qed.
Lemma leave_sc r s : sc (leave r s) = sc s. Proof. unfold leave. by destruct (poller s), r. Qed.
Lemma leave_qc r s : qc (leave r s) = qc s. Proof. unfold leave. by destruct (poller s), r. Qed.
Lemma leave_qd r s : qd (leave r s) = qd s. Proof. unfold leave. by destruct (poller s), r. Qed.
Lemma leave_wm r s : wm (leave r s) = wm s. Proof. unfold leave. by destruct (poller s), r. Qed.
Lemma leave_qe r s : qe (leave r s) = qe s. Proof. unfold leave. by destruct (poller s), r. Qed.
Lemma leave_ws r s : ws (leave r s) = ws s. Proof. unfold leave. by destruct (poller s), r. Qed.
Lemma leave_ui r s : ui (leave r s) = ui s. Proof. unfold leave. by destruct (poller s), r. Qed.
Lemma leave_qu r s : qu (leave r s) = qu s. Proof. unfold leave. by destruct (poller s), r. Qed.
Lemma leave_shown r s : shown (leave r s) = shown s. Proof. unfold leave. by destruct (poller s), r. Qed.
Lemma leave_sent r s : sent (leave r s) = sent s. Proof. unfold leave. by destruct (poller s), r. Qed.
Lemma leave_slot r s : slot (leave r s) = slot s. Proof. unfold leave. by destruct (poller s), r. Qed.
Lemma leave_poller r s : poller (leave r s) = PJoined. Proof. unfold leave. by destruct (poller s), r. Qed.
Definition left_phase (r : outcome) (c : client_phase) : Prop :=
  (r <> PanicEnd /\ c = CLeft r) \/ c = CJoin PanicEnd \/ (r = PanicEnd /\ c = CAbort).
Lemma leave_cl r s : left_phase r (cl (leave r s)).
Proof. unfold leave, left_phase. destruct (poller s), r; cbn; auto. Qed.
Ltac lv := rewrite ?leave_qa, ?leave_mg, ?leave_qb, ?leave_sc, ?leave_qc, ?leave_qd, ?leave_wm, ?leave_qe, ?leave_ws, ?leave_ui, ?leave_qu, ?leave_shown, ?leave_sent, ?leave_slot, ?leave_poller.

(** ** The executor *)
Definition mg_done (m : manager_phase) : bool := match m with MEnded => true | _ => false end.
Definition worker_ok (wm : bool) (sc : sched_phase) (x : worker) : Prop :=
  (wm = false -> FExit ∈ w_in x \/ w_exiting x = true) /\
  (w_gone x = true -> w_phase x = WIdle /\ w_exiting x = true) /\
  (w_phase x = WWait -> GDone ∈ w_out x \/ FFiles ∈ w_in x \/ w_exiting x = true \/ sc = SchEnded).
Definition exec_inv (s : life) : Prop :=
  (mg_done (mg s) = true <-> SExit ∈ qc s \/ sc s = SchEnded) /\
  (sc s = SchEnded -> EExit ∈ qe s \/ wm s = false) /\
  (forall w x, ws s !! w = Some x -> worker_ok (wm s) (sc s) x).

Lemma map_EKill_exit ks : EExit ∉ map EKill ks.
Proof. induction ks as [|k ks IH]; [apply not_elem_of_nil|]. cbn. rewrite elem_of_cons. intros [H|H]; [done|exact (IH H)]. Qed.
Lemma map_EJob_exit ks : EExit ∉ map EJob ks.
Proof. induction ks as [|k ks IH]; [apply not_elem_of_nil|]. cbn. rewrite elem_of_cons. intros [H|H]; [done|exact (IH H)]. Qed.
Lemma worker_ok_sc wm sc x : worker_ok wm sc x -> worker_ok wm SchEnded x.
Proof. intros (H1 & H2 & H3). split; [done|]. split; [done|]. auto. Qed.
Lemma worker_ok_run wm k d k' d' x : worker_ok wm (SchRun k d) x -> worker_ok wm (SchRun k' d') x.
Proof. intros (H1 & H2 & H3). split; [done|]. split; [done|]. intros H. destruct (H3 H) as [|[|[|]]]; auto. done. Qed.
Lemma ws_insert wm sc (l : list worker) (w : nat) y : (forall (w : nat) x, l !! w = Some x -> worker_ok wm sc x) -> worker_ok wm sc y ->
  forall (w' : nat) x, <[w := y]> l !! w' = Some x -> worker_ok wm sc x.
Proof. intros H Hy w' x Hx. apply list_lookup_insert_Some in Hx as [(<- & <- & _)|[_ Hx]]; eauto. Qed.

Lemma exec_inv_step local valid s s' : step local valid s s' -> exec_inv s -> exec_inv s'.
Proof.
  intros H. unfold exec_inv.
  stepcases H; intros (H1 & H2 & H3); flat; lv; flat; try (by split_and!); try (destruct (manager_alive s); lv; flat; by split_and!);
    try (destruct (manager_alive s || bool_decide (k = 0)); lv; flat; by split_and!); try (destruct (slot s && manager_alive s); flat; by split_and!).
  - rewrite Hg in H1. destruct m; cbn [manager_msg]; [destruct valid; [destruct h|]|destruct h| |destruct h|destruct h]; flat; rewrite ?Hg; split_and!; try done;
      rewrite ?elem_of_app, ?elem_of_list_singleton; naive_solver.
  - rewrite Hg in H1. unfold manager_end. flat. split_and!; try done. rewrite !elem_of_app, elem_of_list_singleton. naive_solver.
  - rewrite Hg in H1. unfold manager_end. flat. split_and!; try done. rewrite !elem_of_app, elem_of_list_singleton. naive_solver.
  - rewrite Hs, Hq in *. assert (m = SExit \/ m = SDisconnect \/ (m <> SExit /\ sched_msg m kn dn ns js ks (set_qc q s) = set_sched (SchRun (kn || bool_decide (m = SEvaluate)) (dn || bool_decide (DDone ∈ ns)))
        (set_work (work s - length js) (set_qd (qd s ++ ns) (set_qe (qe s ++ map EJob js) (set_qc q s)))))) as [->|[->|[Hne E]]] by (destruct m; auto).
    + cbn [sched_msg]. flat. split_and!.
      * split; [auto|]. intros _. apply H1. left. apply elem_of_list_here.
      * intros _. left. apply elem_of_app. right. apply elem_of_list_here.
      * intros w x Hx. by eapply worker_ok_sc, H3.
    + cbn [sched_msg]. flat. split_and!; [|done|].
      * rewrite H1, elem_of_cons. naive_solver.
      * intros w x Hx. by eapply worker_ok_run, H3.
    + rewrite E. flat. split_and!; [|done|].
      * rewrite H1, elem_of_cons. naive_solver.
      * intros w x Hx. by eapply worker_ok_run, H3.
  - assert (Hs2 : forall m' w, m' = EJob w \/ m' = EKill w -> m = m' -> EExit ∈ qe s -> EExit ∈ q).
    { intros m' w Hm' -> He. rewrite Hq in He. apply elem_of_cons in He as [He|He]; [|done]. destruct Hm'; congruence. }
    assert (Hsend : forall f w, forall w' x, alter (fun x => Worker (w_phase x) (w_in x ++ [f]) (w_out x) (w_exiting x) (w_gone x)) w (ws s) !! w' = Some x -> worker_ok (wm s) (sc s) x).
    { intros f w w' x Hx. destruct (decide (w = w')) as [<-|Hw']; [|rewrite list_lookup_alter_ne in Hx by done; eauto]. rewrite list_lookup_alter in Hx. apply fmap_Some in Hx as (y & Hy & ->).
      destruct (H3 _ _ Hy) as (A1 & A2 & A3). split_and!; cbn [w_in w_phase w_out w_exiting w_gone]; rewrite ?elem_of_app; naive_solver. }
    destruct m as [w|w|]; cbn [wm_msg]; unfold worker_send; flat.
    + split_and!; [done| |apply Hsend]. intros He. destruct (H2 He) as [He'|He']; [|auto]. left. eapply (Hs2 (EJob w) w); auto.
    + split_and!; [done| |apply Hsend]. intros He. destruct (H2 He) as [He'|He']; [|auto]. left. eapply (Hs2 (EKill w) w); auto.
    + split_and!; [done|auto|]. intros w x Hx. change (list_fmap _ _ ?f (ws s)) with (f <$> ws s) in Hx. apply list_lookup_fmap_Some in Hx as (y & Hy & ->).
      destruct (H3 _ _ Hy) as (A1 & A2 & A3). split_and!; cbn [w_in w_phase w_out w_exiting w_gone]; rewrite ?elem_of_app, ?elem_of_list_singleton; naive_solver.
  - split_and!; [done|done|]. apply ws_insert; [done|]. destruct (H3 _ _ Hw) as (A1 & A2 & A3). rewrite Hq, He in *.
    assert (Hg : w_gone x = false) by (destruct (w_gone x); naive_solver).
    unfold pop_in, worker_ok. rewrite Hq. rewrite skipn_cons, drop_0. destruct m; cbn [worker_msg w_in w_phase w_out w_exiting w_gone]; rewrite ?Hg, ?He.
    + split_and!; [|done|]. { intros Hm. destruct (A1 Hm) as [A|A]; [|done]. apply elem_of_cons in A as [A|A]; [done|auto]. }
      intros Hp. destruct (w_phase x); try done. destruct (A3 Hp) as [A|[A|[A|A]]]; auto. apply elem_of_cons in A as [A|A]; [done|auto].
    + split_and!; [|done|]. { intros Hm. destruct (A1 Hm) as [A|A]; [|done]. apply elem_of_cons in A as [A|A]; [done|auto]. }
      intros Hp. destruct (A3 Hp) as [A|[A|[A|A]]]; auto. apply elem_of_cons in A as [A|A]; [done|auto].
    + split_and!; auto. done.
    + destruct (w_phase x) eqn:Ep; cbn [w_in w_phase w_out w_exiting w_gone]; rewrite ?Hg, ?He; split_and!; try done;
        (intros Hm; destruct (A1 Hm) as [A|A]; [|done]; apply elem_of_cons in A as [A|A]; [done|by left]).
  - split_and!; [done|done|]. apply ws_insert; [done|]. destruct (H3 _ _ Hw) as (A1 & A2 & A3).
    split_and!; cbn [w_in w_phase w_out w_exiting w_gone]; [done| |].
    + intros Hx. destruct (A2 Hx) as [A _]. congruence.
    + intros _. left. apply elem_of_app. right. apply elem_of_list_here.
  - split_and!; [done|done|]. apply ws_insert; [done|]. destruct (H3 _ _ Hw) as (A1 & A2 & A3). rewrite He in *.
    split_and!; cbn [w_in w_phase w_out w_exiting w_gone]; auto; done.
  - split_and!; [done|done|]. apply ws_insert; [done|]. destruct (H3 _ _ Hw) as (A1 & A2 & A3). rewrite He in *.
    split_and!; cbn [w_in w_phase w_out w_exiting w_gone]; auto; done.
  - split_and!; [|done|].
    + rewrite elem_of_app, elem_of_list_singleton. naive_solver.
    + apply ws_insert; [done|]. destruct (H3 _ _ Hw) as (A1 & A2 & A3). rewrite Hq in *. unfold out_msg. rewrite Hq, skipn_cons, drop_0.
      split_and!; cbn [w_in w_phase w_out w_exiting w_gone]; [|done|].
      * intros Hm. destruct (A1 Hm) as [A|A]; [|auto]. left. destruct m; [done|]. apply elem_of_app. by left.
      * intros Hp. destruct (A3 Hp) as [A|[A|A]]; [|destruct m; [auto|right; left; apply elem_of_app; by left]|auto].
        apply elem_of_cons in A as [<-|A]; [|auto]. right. left. apply elem_of_app. right. apply elem_of_list_here.
  - split_and!; [done|done|]. apply ws_insert; [done|]. destruct (H3 _ _ Hw) as (A1 & A2 & A3).
    split_and!; cbn [w_in w_phase w_out w_exiting w_gone]; [|done|auto].
    intros Hm. destruct (A1 Hm) as [A|A]; [|auto]. left. destruct m; [done|]. cbn. apply elem_of_app. by left.
Qed.
Lemma exec_inv_event s s' : event s s' -> exec_inv s -> exec_inv s'.
Proof. intros H. unfold exec_inv. eventcases H; [destruct (manager_alive s)|destruct (slot s && manager_alive s)]; flat; auto. Qed.
Lemma exec_inv_start n jobs : exec_inv (life_start n jobs).
Proof.
  split_and!; cbn; [|done|].
  - split; [done|]. intros [H|H]; [by apply elem_of_nil in H|done].
  - intros w x Hx. apply lookup_replicate in Hx as [-> _]. by split_and!.
Qed.
Lemma exec_inv_reachable local valid n jobs s : reachable local valid n jobs s -> exec_inv s.
Proof. induction 1; eauto using exec_inv_start, exec_inv_step, exec_inv_event. Qed.

(** When no step is enabled the part of the executor below the manager did all it had to do. *)
Definition stuck (local valid : bool) (s : life) : Prop := forall s', ~ step local valid s s'.
Lemma stuck_qd local valid s : stuck local valid s -> qd s = [].
Proof. intros H. destruct (qd s) as [|d q] eqn:E; [done|]. exfalso. by eapply H, StBinder. Qed.
Lemma stuck_qc local valid s kn dn : stuck local valid s -> sc s = SchRun kn dn -> qc s = [].
Proof.
  intros H Hs. destruct (qc s) as [|m q] eqn:E; [done|]. exfalso.
  eapply H, (StSched _ _ _ _ _ _ _ [] [] []); try done; [cbn; lia|]. intros _. split; [done|apply not_elem_of_nil].
Qed.
Lemma stuck_ended local valid s : stuck local valid s -> exec_inv s -> mg s = MEnded -> executor_ended s = true.
Proof.
  intros H (H1 & H2 & H3) Hm. rewrite Hm in H1.
  assert (Hs : sc s = SchEnded).
  { destruct (sc s) as [kn dn|] eqn:E; [|done]. rewrite (stuck_qc _ _ _ _ _ H E) in H1. destruct H1 as [H1 _]. destruct (H1 eq_refl) as [A|A]; [by apply elem_of_nil in A|done]. }
  assert (Hw : wm s = false).
  { destruct (wm s) eqn:E; [|done]. destruct (H2 Hs) as [A|A]; [|done]. destruct (qe s) as [|m q] eqn:Eq; [by apply elem_of_nil in A|]. exfalso. by eapply H, StWm. }
  unfold executor_ended, run_ended. rewrite Hs, Hw, (stuck_qd _ _ _ H). cbn. apply forallb_forall. intros x Hx.
  apply elem_of_list_In, elem_of_list_lookup in Hx as [w Hx]. destruct (H3 _ _ Hx) as (A1 & A2 & A3). rewrite Hw in A1.
  assert (He : w_exiting x = true).
  { destruct (w_exiting x) eqn:E; [done|]. destruct (A1 eq_refl) as [A|A]; [|done]. destruct (w_in x) as [|m q] eqn:Eq; [by apply elem_of_nil in A|]. exfalso. by eapply H, StWorker. }
  destruct (w_gone x) eqn:Eg; [done|]. exfalso. destruct (w_phase x) eqn:Ep; [by eapply H, StGone|by eapply H, StJobEnd|by eapply H, StJobLeft].
Qed.
