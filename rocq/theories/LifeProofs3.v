(** * LifeProofs3: the client, for C77 *)
From Verif Require Import LifeModel LifeProofs LifeProofs2.
From stdpp Require Import base list.

(** ** The phases of the client *)
Definition phase_inv (s : life) : Prop :=
  match cl s with
  | CStart => slot s = true /\ poller s = PNone
  | CEval _ => slot s = true /\ (poller s = PRun \/ poller s = PExited)
  | CLeft r => slot s = true /\ poller s = PJoined /\ r <> PanicEnd
  | CTaken => slot s = false /\ poller s = PJoined
  | CJoin r | CStopUI r | CJoinUI r | CExit r => (slot s = true -> r <> OkEnd) /\ poller s = PJoined
  | CAbort => slot s = true
  end.
Lemma phase_leave r s : slot s = true -> phase_inv (leave r s).
Proof. intros H. unfold phase_inv. lv. destruct (leave_cl r s) as [[A ->]|[->|[A ->]]]; auto. Qed.
Lemma phase_ui l s : phase_inv (ui_send l s) <-> phase_inv s. Proof. done. Qed.
Lemma phase_inv_step local valid s s' : step local valid s s' -> phase_inv s -> phase_inv s'.
Proof.
  intros H P. assert (E : forall s', cl s' = cl s -> slot s' = slot s -> poller s' = poller s -> phase_inv s') by (intros s0 A1 A2 A3; unfold phase_inv; by rewrite A1, A2, A3).
  stepcases H; try (by apply E); rewrite ?phase_ui; try (unfold phase_inv in P; rewrite Hc in P).
  - unfold phase_inv. flat. destruct P. auto.
  - apply phase_leave. apply P.
  - apply phase_leave. apply P.
  - destruct (manager_alive s); [|by apply phase_leave; destruct P]. unfold phase_inv. flat. by rewrite Hc.
  - unfold phase_inv. flat. done.
  - destruct (manager_alive s); apply phase_leave; by destruct P.
  - destruct (manager_alive s || bool_decide (k = 0)); [|by apply phase_leave; destruct P]. unfold phase_inv. by flat.
  - apply phase_leave. apply P.
  - apply phase_leave. apply P.
  - unfold phase_inv. flat. by destruct P as (? & ? & ?).
  - unfold phase_inv. destruct (slot s && manager_alive s); flat; by destruct P as (? & ? & ?).
  - unfold phase_inv. flat. destruct P as [P1 P2]. rewrite P1. done.
  - unfold phase_inv. by flat.
  - unfold phase_inv. by flat.
  - unfold phase_inv. by flat.
  - apply E; destruct m; cbn [manager_msg]; [destruct valid; [destruct h|]|destruct h| |destruct h|destruct h| destruct valid; [destruct h|]|destruct h| |destruct h|destruct h| destruct valid; [destruct h|]|destruct h| |destruct h|destruct h]; done.
  - by apply E; destruct m.
  - by apply E; destruct m.
Qed.
Lemma phase_inv_event s s' : event s s' -> phase_inv s -> phase_inv s'.
Proof.
  intros H P. eventcases H.
  - destruct (manager_alive s); [exact P|]. unfold phase_inv in *. flat. rewrite Hp in P. destruct (cl s); naive_solver.
  - destruct (slot s && manager_alive s); exact P.
Qed.
Lemma phase_inv_reachable local valid n jobs s : reachable local valid n jobs s -> phase_inv s.
Proof. induction 1; eauto using phase_inv_step, phase_inv_event. by cbn. Qed.

(** ** What the client waits for *)
Definition knows (s : life) : bool := match sc s with SchRun k _ => k | SchEnded => false end.
Definition done_sent (s : life) : bool := match sc s with SchRun _ d => d | SchEnded => false end.
Definition told (m : option nat) (s : life) : Prop := m <> None \/ DDone ∈ qd s \/ BDone ∈ qb s.
Definition pend (s : life) : Prop :=
  exists q1 q2, qc s = q1 ++ SDisconnect :: q2 /\ SDisconnect ∉ q1 /\ (knows s = true \/ SEvaluate ∈ q1).
Definition a_asks (l : list a_msg) : nat := sum_of a_ask l.
Definition b_file (m : b_msg) : nat := match m with BFile => 1 | _ => 0 end.
Definition eval_inv (s : life) : Prop :=
  (cl s = CStart -> knows s = false /\ done_sent s = false /\ SEvaluate ∉ qc s /\ AEvaluate ∉ qa s) /\
  (mg s = MRun true -> SDisconnect ∉ qc s) /\
  (forall m, cl s = CEval m ->
    (mg s = MRun true -> AEvaluate ∈ qa s \/ SEvaluate ∈ qc s \/ knows s = true) /\
    (mg s = MRun false -> AEvaluate ∈ qa s \/ told m s \/ pend s) /\
    (done_sent s = true -> told m s) /\
    (forall k h, m = Some k -> mg s = MRun h -> k <= sum_of a_ask (qa s) + sum_of b_file (qb s) \/ BError ∈ qb s)).

Lemma eval_inv_gone s : cl s <> CStart -> (forall m, cl s <> CEval m) -> (mg s = MRun true -> SDisconnect ∉ qc s) -> eval_inv s.
Proof. intros H1 H2 H3. split_and!; try done. intros m Hm. by destruct (H2 m). Qed.
Lemma eval_inv_leave r s : (mg s = MRun true -> SDisconnect ∉ qc s) -> eval_inv (leave r s).
Proof. intros H. apply eval_inv_gone; [| |by lv]; destruct (leave_cl r s) as [[A ->]|[->|[A ->]]]; done. Qed.
(** Other components change *)
Lemma eval_inv_same s s' : cl s' = cl s -> mg s' = mg s -> qa s' = qa s -> qb s' = qb s -> qc s' = qc s -> qd s' = qd s -> sc s' = sc s ->
  eval_inv s -> eval_inv s'.
Proof. intros E1 E2 E3 E4 E5 E6 E7. unfold eval_inv, knows, done_sent, told, pend, knows. rewrite E1, E2, E3, E4, E5, E6, E7. done. Qed.
Lemma eval_inv_ui l s : eval_inv (ui_send l s) <-> eval_inv s. Proof. done. Qed.
Lemma elem_app_l {A} (x : A) l1 l2 : x ∈ l1 -> x ∈ l1 ++ l2. Proof. rewrite elem_of_app. auto. Qed.
(** A message other than Evaluate is sent to the manager *)
Lemma eval_inv_qa l s : AEvaluate ∉ l -> eval_inv s -> eval_inv (set_qa (qa s ++ l) s).
Proof.
  intros Hl (H1 & H2 & H3). split_and!; [|done|]; flat.
  - intros Hc. destruct (H1 Hc) as (A1 & A2 & A3 & A4). split_and!; try done. rewrite elem_of_app. tauto.
  - intros m Hm. destruct (H3 m Hm) as (A1 & A2 & A3 & A4). split_and!; flat.
    + rewrite elem_of_app. tauto.
    + unfold told, pend, knows in *. flat. rewrite elem_of_app. tauto.
    + exact A3.
    + intros k h Hk Hg. destruct (A4 k h Hk Hg) as [A|A]; [left|by right]. rewrite sum_of_app. lia.
Qed.
(** A message that is not EvaluationDone for the client *)
Lemma eval_inv_qd l s : eval_inv s -> eval_inv (set_qd (qd s ++ l) s).
Proof.
  intros (H1 & H2 & H3). split_and!; [done|done|]; flat.
  intros m Hm. destruct (H3 m Hm) as (A1 & A2 & A3 & A4). unfold told, pend, knows, done_sent in *. flat. rewrite elem_of_app. split_and!; try tauto.
Qed.

Lemma eval_inv_step local valid s s' : step local valid s s' -> exec_inv s -> eval_inv s -> eval_inv s'.
Proof.
  intros H HX E. pose proof E as (H1 & H2 & H3).
  assert (S : forall s', cl s' = cl s -> mg s' = mg s -> qa s' = qa s -> qb s' = qb s -> qc s' = qc s -> qd s' = qd s -> sc s' = sc s -> eval_inv s') by (intros; by eapply eval_inv_same).
  stepcases H; try (by apply S); rewrite ?eval_inv_ui.
  - (* StStart *) destruct (H1 Hc) as (A1 & A2 & A3 & A4). split_and!; [done|done|]. flat. intros m [= <-]. split_and!.
    + intros _. left. apply elem_of_app. right. apply elem_of_list_here.
    + intros _. left. apply elem_of_app. right. apply elem_of_list_here.
    + unfold done_sent in *. flat. congruence.
    + done.
  - by apply eval_inv_leave.
  - by apply eval_inv_leave.
  - (* StAsk *) destruct (manager_alive s); [|by apply eval_inv_leave].
    split_and!; [flat; congruence|done|]. flat. intros m' Hm'. destruct (H3 m' Hm') as (A1 & A2 & A3 & A4). rewrite Hq in *.
    unfold told, pend, knows, done_sent in *. flat. rewrite Hq in *. split_and!.
    + rewrite elem_of_app. tauto.
    + intros Hg. destruct (A2 Hg) as [A|[[A|[A|A]]|A]]; auto; [left; by apply elem_app_l|]. apply elem_of_cons in A as [A|A]; [done|auto].
    + intros Hd. destruct (A3 Hd) as [A|[A|A]]; auto. apply elem_of_cons in A as [A|A]; [done|auto].
    + intros k h Hk Hg. destruct (A4 k h Hk Hg) as [A|A]; [left|right; apply elem_of_cons in A as [A|A]; [done|auto]]. rewrite sum_of_app. cbn in *. lia.
  - (* StFile *) split_and!; [done|done|]. flat. intros m' [= <-]. destruct (H3 m Hc) as (A1 & A2 & A3 & A4). unfold told, pend, knows, done_sent in *. flat. rewrite Hq in *.
    assert (Hmm : m <> None -> Nat.pred <$> m <> None) by (by destruct m). split_and!.
    + exact A1.
    + intros Hg. destruct (A2 Hg) as [A|[[A|[A|A]]|A]]; auto. apply elem_of_cons in A as [A|A]; [done|auto].
    + intros Hd. destruct (A3 Hd) as [A|[A|A]]; auto. apply elem_of_cons in A as [A|A]; [done|auto].
    + intros k h Hk Hg. destruct m as [k0|]; [|done]. injection Hk as <-. destruct (A4 k0 h eq_refl Hg) as [A|A]; [left|right; apply elem_of_cons in A as [A|A]; [done|auto]]. cbn in *. lia.
  - (* StNotify *) split_and!; [flat; congruence|done|]. flat. intros m' Hm'. destruct (H3 m' Hm') as (A1 & A2 & A3 & A4). unfold told, pend, knows, done_sent in *. flat. rewrite Hq in *. split_and!.
    + exact A1.
    + intros Hg. destruct (A2 Hg) as [A|[[A|[A|A]]|A]]; auto. apply elem_of_cons in A as [A|A]; [done|auto].
    + intros Hd. destruct (A3 Hd) as [A|[A|A]]; auto. apply elem_of_cons in A as [A|A]; [done|auto].
    + intros k h Hk Hg. destruct (A4 k h Hk Hg) as [A|A]; [left|right; apply elem_of_cons in A as [A|A]; [done|auto]]. cbn in *. lia.
  - destruct (manager_alive s); by apply eval_inv_leave.
  - (* StDone *) destruct (manager_alive s || bool_decide (k = 0)); [|by apply eval_inv_leave].
    split_and!; [done|done|]. flat. intros m' [= <-]. destruct (H3 m Hc) as (A1 & A2 & A3 & A4). unfold told in *. split_and!; flat.
    + rewrite elem_of_app. intros Hg. destruct (A1 Hg); auto.
    + intros _. right. left. by left.
    + intros _. by left.
    + intros k' h [= <-] Hg. left. rewrite sum_of_app, sum_of_replicate. cbn. lia.
  - by apply eval_inv_leave.
  - by apply eval_inv_leave.
  - apply eval_inv_gone; done.
  - destruct (slot s && manager_alive s); apply eval_inv_gone; done.
  - apply eval_inv_gone; done.
  - apply eval_inv_gone; done.
  - apply eval_inv_gone; done.
  - apply eval_inv_gone; done.
  - (* StManager *) destruct m; cbn [manager_msg].
    + destruct valid; [destruct h|].
      * split_and!; flat.
        { intros Hc. destruct (H1 Hc) as (A1 & A2 & A3 & A4). rewrite Hq in A4. exfalso. apply A4, elem_of_list_here. }
        { intros _. rewrite elem_of_app, elem_of_list_singleton. intros [A|A]; [by apply H2|done]. }
        intros m Hm. destruct (H3 m Hm) as (A1 & A2 & A3 & A4). unfold told, pend, knows, done_sent in *. flat. rewrite Hg, Hq in *. split_and!; try done.
        { intros _. right. left. apply elem_of_app. right. apply elem_of_list_here. }
        { intros Hd. destruct (A3 Hd) as [A|[A|A]]; auto. right. right. by apply elem_app_l. }
        { intros k' h Hk' Hh. destruct (A4 k' h Hk' Hh) as [A|A]; [left|right; by apply elem_app_l]. rewrite sum_of_app. cbn in *. lia. }
      * split_and!; flat; [|done|].
        { intros Hc. destruct (H1 Hc) as (A1 & A2 & A3 & A4). rewrite Hq in A4. exfalso. apply A4, elem_of_list_here. }
        intros m Hm. destruct (H3 m Hm) as (A1 & A2 & A3 & A4). split_and!; try done. unfold told, done_sent in *. flat. intros Hd. destruct (A3 Hd) as [A|[A|A]]; auto. right. right. by apply elem_app_l.
      * split_and!; flat; [|done|].
        { intros Hc. destruct (H1 Hc) as (A1 & A2 & A3 & A4). rewrite Hq in A4. exfalso. apply A4, elem_of_list_here. }
        intros m Hm. destruct (H3 m Hm) as (A1 & A2 & A3 & A4). split_and!; try done. unfold told, done_sent in *. flat. intros Hd. destruct (A3 Hd) as [A|[A|A]]; auto. right. right. by apply elem_app_l.
    + assert (Hqa : AEvaluate ∈ qa s -> AEvaluate ∈ q) by (rewrite Hq; intros A; by apply elem_of_cons in A as [A|A]).
      assert (Hqa2 : AEvaluate ∉ qa s -> AEvaluate ∉ q) by (rewrite Hq, elem_of_cons; tauto).
      destruct h.
      * split_and!; flat.
        { intros Hc. destruct (H1 Hc) as (A1 & A2 & A3 & A4). split_and!; auto. rewrite elem_of_app, elem_of_list_singleton. intros [A|A]; [by apply A3|done]. }
        { intros _. rewrite elem_of_app, elem_of_list_singleton. intros [A|A]; [by apply H2|done]. }
        intros m Hm. destruct (H3 m Hm) as (A1 & A2 & A3 & A4). unfold told, pend, knows, done_sent in *. flat. rewrite Hg, Hq in *. split_and!; try done.
        { intros Hh. rewrite elem_of_app. specialize (A1 Hh). tauto. }
      * split_and!; flat; [|done|].
        { intros Hc. destruct (H1 Hc) as (A1 & A2 & A3 & A4). auto. }
        intros m Hm. destruct (H3 m Hm) as (A1 & A2 & A3 & A4). split_and!; done.
    + assert (Hqa : AEvaluate ∈ qa s -> AEvaluate ∈ q) by (rewrite Hq; intros A; by apply elem_of_cons in A as [A|A]).
      assert (Hqa2 : AEvaluate ∉ qa s -> AEvaluate ∉ q) by (rewrite Hq, elem_of_cons; tauto).
      split_and!; flat; [|done|].
      { intros Hc. destruct (H1 Hc) as (A1 & A2 & A3 & A4). auto. }
      intros m Hm. destruct (H3 m Hm) as (A1 & A2 & A3 & A4). unfold told, pend, knows, done_sent in *. flat. rewrite Hg, Hq in *. split_and!.
      { tauto. }
      { intros Hh. rewrite elem_of_app. destruct (A2 Hh) as [A|[A|A]]; auto. tauto. }
      { rewrite elem_of_app. tauto. }
      { intros k' h' Hk' Hh. destruct (A4 k' h' Hk' Hh) as [A|A]; [|right; by apply elem_app_l]. destruct found.
        - left. rewrite sum_of_app. cbn in *. lia.
        - right. apply elem_of_app. right. apply elem_of_list_here. }
    + assert (Hqa : AEvaluate ∈ qa s -> AEvaluate ∈ q) by (rewrite Hq; intros A; by apply elem_of_cons in A as [A|A]).
      assert (Hqa2 : AEvaluate ∉ qa s -> AEvaluate ∉ q) by (rewrite Hq, elem_of_cons; tauto).
      destruct h.
      * split_and!; flat.
        { intros Hc. destruct (H1 Hc) as (A1 & A2 & A3 & A4). split_and!; auto. rewrite elem_of_app, elem_of_list_singleton. intros [A|A]; [by apply A3|done]. }
        { intros _. rewrite elem_of_app, elem_of_list_singleton. intros [A|A]; [by apply H2|done]. }
        intros m Hm. destruct (H3 m Hm) as (A1 & A2 & A3 & A4). unfold told, pend, knows, done_sent in *. flat. rewrite Hg, Hq in *. split_and!; try done.
        { intros Hh. rewrite elem_of_app. specialize (A1 Hh). tauto. }
      * split_and!; flat; [|done|].
        { intros Hc. destruct (H1 Hc) as (A1 & A2 & A3 & A4). auto. }
        intros m Hm. destruct (H3 m Hm) as (A1 & A2 & A3 & A4). unfold told, pend, knows, done_sent in *. flat. rewrite Hg, Hq in *. split_and!; try done. tauto.
    + assert (Hqa : AEvaluate ∈ qa s -> AEvaluate ∈ q) by (rewrite Hq; intros A; by apply elem_of_cons in A as [A|A]).
      assert (Hqa2 : AEvaluate ∉ qa s -> AEvaluate ∉ q) by (rewrite Hq, elem_of_cons; tauto).
      destruct h.
      * split_and!; flat; [|done|].
        { intros Hc. destruct (H1 Hc) as (A1 & A2 & A3 & A4). split_and!; auto. rewrite elem_of_app, elem_of_list_singleton. intros [A|A]; [by apply A3|done]. }
        intros m Hm. destruct (H3 m Hm) as (A1 & A2 & A3 & A4). unfold told, pend, knows, done_sent in *. flat. rewrite Hg, Hq in *. specialize (A1 eq_refl). split_and!; try done.
        { intros _. destruct A1 as [A|A]; [left; tauto|]. right. right. exists (qc s), []. split_and!; [done|auto|tauto]. }
        { intros k' h' Hk' Hh. apply (A4 k' true Hk' eq_refl). }
      * split_and!; flat; [|done|].
        { intros Hc. destruct (H1 Hc) as (A1 & A2 & A3 & A4). auto. }
        intros m Hm. destruct (H3 m Hm) as (A1 & A2 & A3 & A4). unfold told, pend, knows, done_sent in *. flat. rewrite Hg, Hq in *. split_and!; try done. tauto.
  - (* StManagerEnd *) unfold manager_end. split_and!; flat; [|done|].
    { intros Hc. destruct (H1 Hc) as (A1 & A2 & A3 & A4). split_and!; auto. rewrite !elem_of_app, elem_of_list_singleton. destruct h; rewrite ?elem_of_list_singleton, ?elem_of_nil; intuition congruence. }
    intros m Hm. destruct (H3 m Hm) as (A1 & A2 & A3 & A4). split_and!; done.
  - (* StManagerLeave *) unfold manager_end. split_and!; flat; [|done|].
    { intros Hc. destruct (H1 Hc) as (A1 & A2 & A3 & A4). split_and!; auto. rewrite !elem_of_app, elem_of_list_singleton. destruct h; rewrite ?elem_of_list_singleton, ?elem_of_nil; intuition congruence. }
    intros m Hm. destruct (H3 m Hm) as (A1 & A2 & A3 & A4). split_and!; done.
  - (* StSched *)
    assert (Hqc : SDisconnect ∉ qc s -> SDisconnect ∉ q) by (rewrite Hq, elem_of_cons; tauto).
    assert (m = SExit \/ m = SDisconnect \/ (m <> SExit /\ m <> SDisconnect /\ sched_msg m kn dn ns js ks (set_qc q s) = set_sched (SchRun (kn || bool_decide (m = SEvaluate)) (dn || bool_decide (DDone ∈ ns)))
        (set_work (work s - length js) (set_qd (qd s ++ ns) (set_qe (qe s ++ map EJob js) (set_qc q s)))))) as [->|[->|(Hne & Hne2 & Es)]] by (destruct m; auto).
    + assert (Hm : mg s = MEnded). { destruct HX as [HX _]. rewrite Hq in HX. destruct (mg s); try done; destruct HX as [_ HX]; discriminate HX; left; apply elem_of_list_here. }
      cbn [sched_msg]. split_and!; flat; rewrite ?Hm; [|done|].
      { intros Hc. destruct (H1 Hc) as (A1 & A2 & A3 & A4). rewrite Hq in A3. split_and!; auto; try done. by apply not_elem_of_cons in A3 as [_ A3]. }
      intros m Hm'. destruct (H3 m Hm') as (A1 & A2 & A3 & A4). split_and!; try done; flat; by rewrite Hm.
    + cbn [sched_msg]. split_and!; flat; [|auto|].
      { intros Hc. destruct (H1 Hc) as (A1 & A2 & A3 & A4). rewrite Hq in A3. unfold knows, done_sent in *. rewrite Hs in *. flat. split_and!; auto; try done. by apply not_elem_of_cons in A3 as [_ A3]. }
      intros m Hm. destruct (H3 m Hm) as (A1 & A2 & A3 & A4). unfold told, pend, knows, done_sent in *. rewrite Hs in *. flat. rewrite Hq in *. split_and!; try done.
      { intros Hh. exfalso. apply (H2 Hh), elem_of_list_here. }
      { intros Hh. destruct (A2 Hh) as [A|[A|A]]; [auto|right; left; rewrite elem_of_app; tauto|]. right. left.
        destruct A as (q1 & q2 & B1 & B2 & B3). destruct q1 as [|x q1]; [|exfalso; injection B1 as <- _; apply B2, elem_of_list_here].
        destruct B3 as [B3|B3]; [|by apply elem_of_nil in B3]. rewrite B3 in *. destruct dn; cbn.
        - rewrite app_nil_r. auto.
        - right. left. apply elem_of_app. right. apply elem_of_list_here. }
      { intros Hd. rewrite elem_of_app. destruct (A3 Hd) as [A|[A|A]]; auto. }
    + rewrite Es. split_and!; flat; [|auto|].
      { intros Hc. destruct (H1 Hc) as (A1 & A2 & A3 & A4). rewrite Hq in A3. unfold knows, done_sent in *. rewrite Hs in *. flat. apply not_elem_of_cons in A3 as [A3 A5]. subst kn dn.
        rewrite (bool_decide_eq_false_2 (m = SEvaluate)) in * by done. destruct (Hn eq_refl) as [_ Hn']. rewrite bool_decide_eq_false_2 by done. split_and!; auto. }
      intros m0 Hm. destruct (H3 m0 Hm) as (A1 & A2 & A3 & A4). unfold told, pend, knows, done_sent in *. rewrite Hs in *. flat. rewrite Hq in *. split_and!; try done.
      { intros Hh. destruct (A1 Hh) as [A|[A|A]]; [auto| |right; right; by rewrite A]. apply elem_of_cons in A as [<-|A]; [|auto]. right. right. rewrite bool_decide_eq_true_2 by done. by rewrite orb_true_r. }
      { intros Hh. destruct (A2 Hh) as [A|[A|A]]; [auto|right; left; rewrite elem_of_app; tauto|]. right. right.
        destruct A as (q1 & q2 & B1 & B2 & B3). destruct q1 as [|x q1]; [injection B1 as -> _; done|]. injection B1 as <- ->. exists q1, q2. apply not_elem_of_cons in B2 as [_ B2]. split_and!; [done|done|].
        destruct B3 as [->|B3]; [by left|]. apply elem_of_cons in B3 as [<-|B3]; [|auto]. left. rewrite bool_decide_eq_true_2 by done. by rewrite orb_true_r. }
      { intros Hd. apply orb_true_iff in Hd as [Hd|Hd]; [rewrite elem_of_app; destruct (A3 Hd) as [A|[A|A]]; auto|]. apply bool_decide_eq_true_1 in Hd. right. left. apply elem_of_app. by right. }
  - (* StBinder *) split_and!; flat; [done|done|]. intros m Hm. destruct (H3 m Hm) as (A1 & A2 & A3 & A4).
    assert (T : told m s -> told m (set_qb (qb s ++ [binder_msg d]) (set_qd q s))).
    { unfold told. flat. rewrite Hq. intros [A|[A|A]]; [auto| |right; right; by apply elem_app_l]. apply elem_of_cons in A as [<-|A]; [|auto]. right. right. apply elem_of_app. right. apply elem_of_list_here. }
    split_and!; try done.
    { intros Hg. destruct (A2 Hg) as [A|[A|A]]; auto. }
    { intros Hd. apply T, A3, Hd. }
    { intros k h Hk Hg. destruct (A4 k h Hk Hg) as [A|A]; [left; flat; rewrite sum_of_app; lia|right; by apply elem_app_l]. }
  - destruct m; by apply S.
  - (* StOut *) split_and!; flat.
    { intros Hc. destruct (H1 Hc) as (A1 & A2 & A3 & A4). split_and!; auto. rewrite elem_of_app, elem_of_list_singleton. intros [A|A]; [by apply A3|done]. }
    { intros Hg. rewrite elem_of_app, elem_of_list_singleton. intros [A|A]; [by apply H2|done]. }
    intros m' Hm. destruct (H3 m' Hm) as (A1 & A2 & A3 & A4). split_and!; try done.
    { intros Hh. flat. rewrite elem_of_app. specialize (A1 Hh). unfold knows in *. flat. tauto. }
    { intros Hh. destruct (A2 Hh) as [A|[A|A]]; auto. right. right. destruct A as (q1 & q2 & B1 & B2 & B3). exists q1, (q2 ++ [SWorker]). split_and!; [|done|done]. flat. rewrite B1. by rewrite <- app_assoc. }
Qed.
Lemma eval_inv_event s s' : event s s' -> eval_inv s -> eval_inv s'.
Proof.
  intros H E. eventcases H.
  - destruct (manager_alive s); [|by eapply (eval_inv_same s)]. apply eval_inv_qa; [|done]. rewrite elem_of_list_singleton. done.
  - destruct (slot s && manager_alive s); [|done]. apply eval_inv_qa; [|done]. rewrite elem_of_list_singleton. done.
Qed.
Lemma eval_inv_reachable local valid n jobs s : reachable local valid n jobs s -> eval_inv s.
Proof.
  induction 1 as [|s s' Hr IH Hs|s s' Hr IH Hs]; [|by eapply eval_inv_step; [|eapply exec_inv_reachable|]|by eapply eval_inv_event].
  split_and!; cbn; try done; [|intros _; apply not_elem_of_nil]. intros _. split_and!; try done; apply not_elem_of_nil.
Qed.
