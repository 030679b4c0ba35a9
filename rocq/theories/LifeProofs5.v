(** * LifeProofs5: ctrl-c, failures, the threads left, for C77 *)
From stdpp Require Import base list relations.
From Verif Require Import LifeModel LifeSpec LifeProofs LifeProofs2 LifeProofs3 LifeProofs4.

(** ** Calm runs: the manager does not panic *)
Definition stop_seen (s : life) : Prop := mg s = MRun false \/ AStop ∈ qa s.
Definition late (l : list a_msg) : Prop := AProvide ∉ l /\ AEvaluate ∉ l.
Definition calm_inv (s : life) : Prop :=
  mg s <> MPanicked /\ (stop_seen s -> calm_moment s) /\ (mg s = MRun false -> late (qa s)) /\
  (forall q1 q2, qa s = q1 ++ AStop :: q2 -> late q2).
Lemma late_app l1 l2 : late (l1 ++ l2) <-> late l1 /\ late l2.
Proof. unfold late. rewrite !not_elem_of_app. tauto. Qed.
Lemma late_nil : late []. Proof. split; apply not_elem_of_nil. Qed.
(** Messages are sent to the manager *)
Lemma calm_send l s s' : calm_inv s -> mg s' = mg s -> qa s' = qa s ++ l ->
  (stop_seen s' -> calm_moment s') -> (stop_seen s -> late l) -> (forall q1 q2, l = q1 ++ AStop :: q2 -> late q2) -> calm_inv s'.
Proof.
  intros (H1 & H2 & H3 & H4) Em Eq Hc Hl Hl2. unfold calm_inv. rewrite Em, Eq. split_and!; [done|done| |].
  - intros Hm. apply late_app. split; [by apply H3|]. apply Hl. by left.
  - intros q1 q2 E. apply app_eq_inv in E as [(k & E1 & E2)|(k & E1 & E2)].
    + destruct k as [|x k]; [apply (Hl2 [] q2); by rewrite E2|]. injection E2 as <- ->. apply late_app. split; [eapply H4; eassumption|].
      apply Hl. right. rewrite E1. apply elem_of_app. right. apply elem_of_list_here.
    + by eapply Hl2.
Qed.
Lemma calm_same s s' : calm_inv s -> mg s' = mg s -> qa s' = qa s -> (calm_moment s -> calm_moment s') -> calm_inv s'.
Proof.
  intros H Em Eq Hc. eapply (calm_send []); [done|done|by rewrite app_nil_r| |intros; apply late_nil|intros q1 q2 E; by destruct q1].
  destruct H as (_ & H & _). unfold stop_seen in *. rewrite Em, Eq. auto.
Qed.
Lemma calm_left r s : calm_moment (leave r s).
Proof. unfold calm_moment. destruct (leave_cl r s) as [[A ->]|[->|[A ->]]]; done. Qed.
Lemma no_stop_cons m q1 q2 : [m] = q1 ++ AStop :: q2 -> q2 = [].
Proof. destruct q1 as [|x q1]; [by intros [= _ <-]|]. intros [= _ E]. by destruct q1. Qed.
Lemma calm_inv_step local valid s s' : step local valid s s' -> phase_inv s -> calm_inv s -> calm_inv s'.
Proof.
  intros H HP E. pose proof E as (H1 & H2 & H3 & H4). unfold phase_inv in HP.
  assert (N : forall m q1 q2, [m] = q1 ++ AStop :: q2 -> late q2) by (intros m q1 q2 A; rewrite (no_stop_cons _ _ _ A); apply late_nil).
  assert (S : forall s', mg s' = mg s -> qa s' = qa s -> (calm_moment s -> calm_moment s') -> calm_inv s') by (intros; by eapply calm_same).
  stepcases H; try (by apply S); try rewrite Hc in HP.
  - (* StStart *) assert (Hn : ~ stop_seen s) by (intros A; specialize (H2 A); unfold calm_moment in H2; by rewrite Hc in H2).
    eapply (calm_send [AEvaluate]); [done|done|done| |done|apply N].
    unfold stop_seen in *. flat. rewrite elem_of_app, elem_of_list_singleton. intros [A|[A|A]]; [tauto|tauto|done].
  - apply S; flat; lv; try done. intros _. apply calm_left.
  - apply S; flat; lv; try done. intros _. apply calm_left.
  - (* StAsk *) destruct (manager_alive s); [|apply S; flat; lv; try done; intros _; apply calm_left].
    assert (Hn : ~ stop_seen s). { intros A. specialize (H2 A). unfold calm_moment in H2. rewrite Hc, Hq in H2. destruct H2 as [_ H2]. apply H2, elem_of_list_here. }
    eapply (calm_send [AProvide]); [done|done|done| |done|apply N].
    unfold stop_seen in *. flat. rewrite elem_of_app, elem_of_list_singleton. intros [A|[A|A]]; [tauto|tauto|done].
  - apply S; flat; try done. unfold calm_moment. flat. rewrite Hc, Hq, not_elem_of_cons. tauto.
  - apply S; flat; try done. unfold calm_moment. flat. rewrite Hc, Hq, not_elem_of_cons. tauto.
  - destruct (manager_alive s); [|apply S; flat; lv; try done; intros _; apply calm_left].
    eapply (calm_send [AStop]); [done|by lv|by lv|intros _; apply calm_left| |apply N]. intros _. split; rewrite elem_of_list_singleton; done.
  - (* StDone *) destruct (manager_alive s || bool_decide (k = 0)); [|apply S; flat; lv; try done; intros _; apply calm_left].
    assert (Hr : forall x : a_msg, x <> AAsk -> x ∉ replicate k AAsk) by (intros x Hx A; apply elem_of_replicate in A as [A _]; done).
    eapply (calm_send (replicate k AAsk)); [done|done|done| | |].
    + unfold stop_seen, calm_moment in *. flat. rewrite !elem_of_app. rewrite Hc, Hq, not_elem_of_cons in H2. intros A.
      assert (B : mg s = MRun false \/ AStop ∈ qa s). { destruct A as [A|[A|A]]; auto. by apply Hr in A. }
      destruct (H2 B) as (B1 & _ & B2). split; [|done]. intros [C|C]; [done|by apply Hr in C].
    + intros _. split; by apply Hr.
    + intros q1 q2 A. exfalso. apply (Hr AStop); [done|]. rewrite A. apply elem_of_app. right. apply elem_of_list_here.
  - apply S; flat; lv; try done. intros _. apply calm_left.
  - apply S; flat; lv; try done. intros _. apply calm_left.
  - destruct (slot s && manager_alive s); [|by apply S]. eapply (calm_send [AStop]); [done|done|done|done| |apply N]. intros _. split; rewrite elem_of_list_singleton; done.
  - (* StManager *)
    assert (Hl : forall q1 q2, q = q1 ++ AStop :: q2 -> late q2) by (intros q1 q2 ->; by apply (H4 (m :: q1) q2)).
    assert (G : forall s', mg s' = MRun h \/ (exists h', mg s' = MLeave h') -> qa s' = q -> (calm_moment s -> calm_moment s') -> calm_inv s').
    { intros s0 B1 B3 B4. unfold calm_inv. rewrite B3. split_and!; [destruct B1 as [-> |[? ->]]; done| | |done].
      - intros A. apply B4, H2. unfold stop_seen in *. rewrite B3 in A. rewrite Hq. destruct A as [A|A]; [|right; by apply elem_of_list_further]. left. destruct B1 as [B1|[? B1]]; congruence.
      - intros A. assert (A' : mg s = MRun false) by (destruct B1 as [B1|[? B1]]; congruence). destruct (H3 A') as [C1 C2]. rewrite Hq in *. apply not_elem_of_cons in C1, C2. split; tauto. }
    assert (Hcm : forall s', cl s' = cl s -> qa s' = q -> (BAsk ∈ qb s' -> BAsk ∈ qb s \/ m = AEvaluate) -> calm_moment s -> calm_moment s').
    { intros s0 B1 B2 B3 A. unfold calm_moment in *. rewrite B1, B2. rewrite Hq in A. destruct (cl s); try done. rewrite not_elem_of_cons in A. destruct A as [[A1 A2] A3].
      split; [done|]. intros C. destruct (B3 C) as [C'|C']; [done|congruence]. }
    assert (Hh : m = AEvaluate \/ m = AProvide -> h = true).
    { intros Hm. destruct h; [done|]. destruct (H3 Hg) as [C1 C2]. rewrite Hq in *. apply not_elem_of_cons in C1, C2. destruct Hm; intuition congruence. }
    destruct m; cbn [manager_msg].
    + rewrite (Hh (or_introl eq_refl)) in *. destruct valid.
      * apply G; flat; [by left|done|]. apply Hcm; try done. auto.
      * apply G; flat; [right; by eexists|done|]. apply Hcm; try done. auto.
    + rewrite (Hh (or_intror eq_refl)) in *. apply G; flat; [by left|done|]. apply Hcm; try done. auto.
    + apply G; flat; [by left|done|]. apply Hcm; try done. flat. rewrite elem_of_app. intros [A|A]; [auto|]. destruct found; apply elem_of_list_singleton in A; done.
    + destruct h; (apply G; flat; [by left|done|]; apply Hcm; try done; auto).
    + destruct h; [|apply G; flat; [by left|done|]; apply Hcm; try done; auto].
      unfold calm_inv. flat. split_and!; [done| | |done].
      * intros _. apply Hcm; try done; [auto|]. apply H2. right. rewrite Hq. apply elem_of_list_here.
      * intros _. by apply (H4 [] q).
  - unfold calm_inv, manager_end. flat. split_and!; [done| |done|done]. intros [A|A]; [done|]. apply H2. by right.
  - unfold calm_inv, manager_end. flat. split_and!; [done| |done|done]. intros [A|A]; [done|]. apply H2. by right.
  - destruct m; by apply S.
  - apply S; flat; try done. unfold calm_moment. flat. destruct (cl s); try done. rewrite elem_of_app, elem_of_list_singleton. intros [A1 A2]. split; [done|]. intros [A|A]; [done|]. by destruct d.
  - destruct m; by apply S.
Qed.
Lemma calm_reachable local valid n jobs s : calm local valid n jobs s -> reachable local valid n jobs s.
Proof. induction 1; [constructor|by eapply RStep|eapply REvent; [done|by constructor]|eapply REvent; [done|by constructor]]. Qed.
Lemma calm_inv_calm local valid n jobs s : calm local valid n jobs s -> calm_inv s.
Proof.
  induction 1 as [|s s' Hc IH Hs|s Hc IH Hp|s Hc IH Hm].
  - unfold calm_inv, stop_seen. cbn. split_and!; [done| |done|by intros []]. rewrite elem_of_nil. intros [A|A]; done.
  - eapply calm_inv_step; [done| |done]. by eapply phase_inv_reachable, calm_reachable.
  - pose proof (phase_inv_reachable _ _ _ _ _ (calm_reachable _ _ _ _ _ Hc)) as HP. unfold tick. destruct (manager_alive s); [|by eapply (calm_same s)]. destruct IH as (H1 & H2 & H3 & H4).
    eapply (calm_send [AStatus] s); [done|done|done| | |].
    + unfold stop_seen, calm_moment in *. flat. rewrite elem_of_app, elem_of_list_singleton. intros A. assert (B : mg s = MRun false \/ AStop ∈ qa s) by (destruct A as [A|[A|A]]; auto; done).
      specialize (H2 B). destruct (cl s); try done. destruct H2 as [H2 H2']. split; [|done]. rewrite elem_of_app, elem_of_list_singleton. intros [C|C]; done.
    + intros _. split; rewrite elem_of_list_singleton; done.
    + intros q1 q2 A. rewrite (no_stop_cons _ _ _ A). apply late_nil.
  - unfold ctrl_c. destruct (slot s && manager_alive s); [|done].
    eapply (calm_send [AStop] s); [done|done|done| | |].
    + intros _. unfold calm_moment in *. flat. destruct (cl s); try done. destruct Hm. split; [|done]. rewrite elem_of_app, elem_of_list_singleton. intros [C|C]; done.
    + intros _. split; rewrite elem_of_list_singleton; done.
    + intros q1 q2 A. rewrite (no_stop_cons _ _ _ A). apply late_nil.
Qed.

(** ** After ctrl-c *)
Definition stopping (s : life) : Prop := mg s <> MRun true \/ AStop ∈ qa s \/ slot s = false.
Lemma stopping_step local valid s s' : step local valid s s' -> stopping s -> stopping s'.
Proof.
  intros H. unfold stopping. stepcases H; flat; lv; try done; rewrite ?elem_of_app; try tauto.
  - destruct (manager_alive s); flat; lv; flat; rewrite ?elem_of_app; tauto.
  - destruct (manager_alive s); flat; lv; flat; rewrite ?elem_of_app; tauto.
  - destruct (manager_alive s || bool_decide (k = 0)); flat; lv; flat; rewrite ?elem_of_app; tauto.
  - destruct (slot s && manager_alive s); flat; rewrite ?elem_of_app; tauto.
  - rewrite Hq, elem_of_cons. intros A. destruct m; cbn [manager_msg]; [destruct valid; [destruct h|]|destruct h| |destruct h|destruct h]; flat; rewrite ?Hg in *; intuition congruence.
  - unfold manager_end. flat. intros _. by left.
  - unfold manager_end. flat. intros _. by left.
  - destruct m; exact id.
  - destruct m; exact id.
Qed.
Lemma stopping_event s s' : event s s' -> stopping s -> stopping s'.
Proof. intros H. unfold stopping. eventcases H; [destruct (manager_alive s)|destruct (slot s && manager_alive s)]; flat; rewrite ?elem_of_app; tauto. Qed.
Lemma stopping_ctrl_c s : stopping (ctrl_c s).
Proof.
  unfold ctrl_c, stopping. destruct (slot s) eqn:E; [|auto]. unfold manager_alive. destruct (mg s) as [h|h| |] eqn:Em; cbn [andb]; flat; rewrite ?Em, ?elem_of_app; try (left; done).
  right. left. right. apply elem_of_list_here.
Qed.
Lemma reachable_next local valid n jobs s s' : reachable local valid n jobs s -> rtc (next local valid) s s' -> reachable local valid n jobs s'.
Proof. intros Hr H. induction H as [|s s1 s' [Hs|Hs] _ IH]; [done|apply IH; by eapply RStep|apply IH; by eapply REvent]. Qed.
Lemma stopping_next local valid s s' : stopping s -> rtc (next local valid) s s' -> stopping s'.
Proof. intros Hr H. induction H as [|s s1 s' [Hs|Hs] _ IH]; [done|apply IH; by eapply stopping_step|apply IH; by eapply stopping_event]. Qed.
Lemma starving_not_stopping n jobs local valid s : reachable local valid n jobs s -> starving s -> ~ stopping s.
Proof.
  intros Hr (Hc & _ & Hm & _ & Hq & _) [A|[A|A]]; [done|rewrite Hq in A; by apply elem_of_nil in A|].
  pose proof (phase_inv_reachable _ _ _ _ _ Hr) as HP. unfold phase_inv in HP. rewrite Hc in HP. destruct HP. congruence.
Qed.

(** ** A valid DAG: while the ctrl-c handler has the sender the manager does not end *)
Definition hold_inv (s : life) : Prop := slot s = true -> (exists h, mg s = MRun h) \/ mg s = MPanicked.
Lemma hold_step local s s' : step local true s s' -> hold_inv s -> hold_inv s'.
Proof.
  intros H. unfold hold_inv. stepcases H; flat; lv; try done.
  - destruct (manager_alive s); flat; lv; done.
  - destruct (manager_alive s); flat; lv; done.
  - destruct (manager_alive s || bool_decide (k = 0)); flat; lv; done.
  - destruct (slot s && manager_alive s); flat; done.
  - intros _. destruct m; cbn [manager_msg]; [destruct h|destruct h| |destruct h|destruct h]; flat; rewrite ?Hg; eauto.
  - unfold manager_end. flat. unfold client_sender_alive in Ha. intros _ A. rewrite A, orb_true_r in Ha. done.
  - unfold manager_end. flat. intros A B. destruct (A B) as [[? C]|C]; congruence.
  - destruct m; exact id.
  - destruct m; exact id.
Qed.
Lemma hold_event s s' : event s s' -> hold_inv s -> hold_inv s'.
Proof. intros H. unfold hold_inv. eventcases H; [destruct (manager_alive s)|destruct (slot s && manager_alive s)]; flat; done. Qed.
Lemma hold_reachable local n jobs s : reachable local true n jobs s -> hold_inv s.
Proof. induction 1; eauto using hold_step, hold_event. intros _. left. by eexists. Qed.
Lemma not_ended_join s : exec_inv s -> mg s <> MEnded -> executor_ended s = false.
Proof. intros (H & _) Hm. unfold executor_ended, run_ended. destruct (sc s) eqn:E; [done|]. destruct H as [_ H]. destruct (mg s); try done; discriminate H; auto. Qed.
Lemma failed_stays local n jobs s s' res : local = true -> reachable local true n jobs s -> slot s = true -> cl s = CJoin res -> next local true s s' -> slot s' = true /\ cl s' = CJoin res.
Proof.
  intros Hloc Hre Hslot Hcl Hn. pose proof (exec_inv_reachable _ _ _ _ _ Hre) as HX. pose proof (hold_reachable _ _ _ _ Hre Hslot) as Hman.
  assert (Hend : executor_ended s = false) by (apply not_ended_join; [done|]; destruct Hman as [[? ->]| ->]; done).
  destruct Hn as [H|H].
  - stepcases H; flat; try congruence; try done.
    + rewrite (He Hloc) in Hend; done.
    + destruct m; cbn [manager_msg]; [destruct h|destruct h| |destruct h|destruct h]; flat; done.
    + destruct m; done.
    + destruct m; done.
  - eventcases H; [destruct (manager_alive s)|destruct (slot s && manager_alive s)]; flat; done.
Qed.
Lemma panicked_stays local valid n jobs s s' : local = true -> reachable local valid n jobs s -> mg s = MPanicked -> ui_phase (cl s) = false -> (forall r, cl s <> CStopUI r) -> next local valid s s' ->
  mg s' = MPanicked /\ ui_phase (cl s') = false /\ (forall r, cl s' <> CStopUI r).
Proof.
  intros Hloc Hre Hman Hui Hui2 Hn. pose proof (exec_inv_reachable _ _ _ _ _ Hre) as HX.
  assert (Hend : executor_ended s = false) by (apply not_ended_join; [done|]; by rewrite Hman).
  assert (L : forall r s, mg s = MPanicked -> mg (leave r s) = MPanicked /\ ui_phase (cl (leave r s)) = false /\ (forall r0, cl (leave r s) <> CStopUI r0)).
  { intros r s0 Hm0. lv. rewrite ui_phase_leave. split_and!; [done|done|]. destruct (leave_cl r s0) as [[A ->]|[->|[A ->]]]; done. }
  destruct Hn as [H|H].
  - stepcases H; flat; try congruence; try done; try (by apply L).
    + destruct (manager_alive s); [by flat|by apply L].
    + destruct (manager_alive s); by apply L.
    + destruct (manager_alive s || bool_decide (k = 0)); [by flat|by apply L].
    + destruct (slot s && manager_alive s); by flat.
    + rewrite (He Hloc) in Hend; done.
    + rewrite Hc in Hui. done.
    + destruct m; done.
    + destruct m; done.
  - eventcases H; [destruct (manager_alive s)|destruct (slot s && manager_alive s)]; flat; done.
Qed.

(** ** The threads of the executor when the program ends *)
Definition joined (c : client_phase) : bool := match c with CStopUI _ | CJoinUI _ | CExit _ => true | _ => false end.
Definition gone_inv (s : life) : Prop := joined (cl s) = true -> executor_gone s.
Lemma executor_ended_gone s : executor_ended s = true -> executor_gone s.
Proof.
  unfold executor_ended, run_ended. intros H. apply andb_true_iff in H as [H1 H2]. apply andb_true_iff in H1 as [H1 H3]. apply andb_true_iff in H1 as [H1 H4].
  split_and!; [by destruct (sc s)|by apply negb_true_iff in H4|by apply bool_decide_eq_true_1 in H3|]. intros w x Hx. rewrite forallb_forall in H2. by eapply H2, elem_of_list_In, elem_of_list_lookup_2.
Qed.
Lemma gone_leave r s : joined (cl (leave r s)) = false.
Proof. destruct (leave_cl r s) as [[A ->]|[->|[A ->]]]; done. Qed.
Lemma gone_step valid s s' : step true valid s s' -> exec_inv s -> gone_inv s -> gone_inv s'.
Proof.
  intros H (_ & _ & X3) G. unfold gone_inv in *.
  stepcases H; flat; try done; rewrite ?gone_leave; try done; try (rewrite Hc in G; exact G).
  - destruct (manager_alive s); [flat; by rewrite Hc|by rewrite gone_leave].
  - destruct (manager_alive s); by rewrite gone_leave.
  - destruct (manager_alive s || bool_decide (k = 0)); [done|by rewrite gone_leave].
  - intros _. by apply executor_ended_gone, He.
  - destruct m; cbn [manager_msg]; [destruct valid; [destruct h|]|destruct h| |destruct h|destruct h]; exact G.
  - intros A. assert (A' : joined (cl s) = true) by (by destruct m). destruct (G A') as (B & _). congruence.
  - intros A. destruct (G A) as (_ & _ & B & _). congruence.
  - intros A. assert (A' : joined (cl s) = true) by (by destruct m). destruct (G A') as (_ & B & _). congruence.
  - intros A. destruct (G A) as (B1 & B2 & B3 & B4). specialize (B4 _ _ Hw). destruct (X3 _ _ Hw) as (_ & X & _). destruct (X B4) as [_ X']. congruence.
  - intros A. destruct (G A) as (B1 & B2 & B3 & B4). specialize (B4 _ _ Hw). destruct (X3 _ _ Hw) as (_ & X & _). destruct (X B4) as [X' _]. congruence.
  - intros A. destruct (G A) as (B1 & B2 & B3 & B4). specialize (B4 _ _ Hw). destruct (X3 _ _ Hw) as (_ & X & _). destruct (X B4) as [X' _]. congruence.
  - intros A. destruct (G A) as (B1 & B2 & B3 & B4). specialize (B4 _ _ Hw). congruence.
  - intros A. destruct (G A) as (B1 & B2 & B3 & B4). congruence.
  - intros A. destruct (G A) as (B1 & B2 & B3 & B4). split_and!; try done. flat. intros w' y Hy. apply list_lookup_insert_Some in Hy as [(<- & <- & _)|[_ Hy]]; [|by eauto]. cbn. by eapply B4.
Qed.
Lemma gone_event s s' : event s s' -> gone_inv s -> gone_inv s'.
Proof. intros H. unfold gone_inv. eventcases H; [destruct (manager_alive s)|destruct (slot s && manager_alive s)]; exact id. Qed.
Lemma gone_reachable valid n jobs s : reachable true valid n jobs s -> gone_inv s.
Proof. induction 1 as [|s s' Hr IH Hs|s s' Hr IH Hs]; [done| |by eapply gone_event]. eapply gone_step; [done| |done]. by eapply exec_inv_reachable. Qed.

(** ** A failure is seen *)
Definition fails (s : life) : Prop :=
  match cl s with CLeft r | CJoin r | CStopUI r | CJoinUI r | CExit r => r <> OkEnd | CAbort => True | _ => False end.
Lemma fails_next local valid s s' : next local valid s s' -> fails s -> fails s'.
Proof.
  intros [H|H] F; unfold fails in *.
  - stepcases H; flat; try done; try (rewrite Hc in F; done).
    + destruct m; cbn [manager_msg]; [destruct valid; [destruct h|]|destruct h| |destruct h|destruct h]; exact F.
    + destruct m; exact F.
    + destruct m; exact F.
  - eventcases H; [destruct (manager_alive s)|destruct (slot s && manager_alive s)]; exact F.
Qed.
