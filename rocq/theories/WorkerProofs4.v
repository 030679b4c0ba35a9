(** * WorkerProofs4: capturing, the asked files, panics, completions *)
From Verif Require Import WorkerSpec WorkerProofs WorkerProofs2 WorkerProofs3.

(** ** Capturing *)
Lemma capture_loop_prefix count (reads : list bytes) err (result out : bytes) : capture_loop count reads err result = Some out ->
  exists d, out = result ++ d /\ d `prefix_of` concat reads.
Proof.
  revert result. induction reads as [|c reads IH]; intros result H; simpl in H.
  - exists []. rewrite app_nil_r. split; [|done]. case_bool_decide; [destruct err|]; by simplify_eq.
  - case_bool_decide.
    + destruct c as [|x c].
      * exists []. simplify_eq. rewrite app_nil_r. split; [done|apply prefix_nil].
      * apply IH in H as (d & -> & Hd). exists ((x :: c) ++ d). rewrite <- app_assoc. split; [done|]. change (concat ((x :: c) :: reads)) with ((x :: c) ++ concat reads). by apply prefix_app.
    + exists []. simplify_eq. rewrite app_nil_r. split; [done|apply prefix_nil].
Qed.
Lemma capture_loop_short count (reads : list bytes) err (result : bytes) : Forall (fun c => c <> []) reads ->
  (N.of_nat (length (result ++ concat reads)) < count)%N ->
  capture_loop count reads err result = if err then None else Some (result ++ concat reads).
Proof.
  intros Hr. revert result. induction Hr as [|c reads Hc Hr IH]; intros result H; simpl.
  - rewrite app_nil_r in *. by rewrite bool_decide_eq_true_2.
  - simpl in H. rewrite bool_decide_eq_true_2 by (rewrite !app_length in H; lia).
    destruct c as [|x c]; [done|]. rewrite IH; [by rewrite <- app_assoc|]. by rewrite <- app_assoc.
Qed.
Lemma capture_loop_long count (reads : list bytes) err (result : bytes) : Forall (fun c => c <> []) reads ->
  (count <= N.of_nat (length (result ++ concat reads)))%N ->
  exists out, capture_loop count reads err result = Some out /\ (count <= N.of_nat (length out))%N.
Proof.
  intros Hr. revert result. induction Hr as [|c reads Hc Hr IH]; intros result H; simpl.
  - rewrite app_nil_r in *. rewrite bool_decide_eq_false_2 by lia. eauto.
  - case_bool_decide; [|exists result; split; [done|lia]]. destruct c as [|x c]; [done|]. apply IH. simpl in *. rewrite <- app_assoc. exact H.
Qed.
Lemma capture_loop_bound count b (reads : list bytes) err (result out : bytes) : Forall (fun c => length c <= b) reads ->
  (N.of_nat (length result) < count + N.of_nat b)%N \/ length result = 0 ->
  capture_loop count reads err result = Some out -> (N.of_nat (length out) < count + N.of_nat b)%N \/ length out = 0.
Proof.
  intros Hr. revert result. induction Hr as [|c reads Hc Hr IH]; intros result Hres H; simpl in H.
  - case_bool_decide; [destruct err|]; by simplify_eq.
  - case_bool_decide.
    + destruct c as [|x c]; [by simplify_eq|]. apply IH in H; [done|]. rewrite app_length. left. lia.
    + by simplify_eq.
Qed.

Section proofs.
  Context (empty_key : store_key).
  Local Notation wstep := (wstep empty_key). Local Notation wreach := (wreach empty_key).

  (** ** What is asked *)
  Lemma scan_asks keys get n deps missing handles evs m h :
    scan keys get n deps missing handles = (evs, Some (m, h)) ->
    forall k, (EvAsk k ∈ evs \/ is_Some (missing !! k)) <->
      (is_Some (missing !! k) \/ exists i f, deps !! i = Some f /\ keys !! f = Some k /\ get (n + i) = false).
  Proof.
    revert n missing handles evs m h. induction deps as [|f deps IH]; intros n missing handles evs m h H k; simpl in H.
    - simplify_eq. split; [|by intros [?|(? & ? & ? & _)]; [right|done]]. intros [Hk|?]; [by apply elem_of_nil in Hk|by left].
    - destruct (keys !! f) as [k0|] eqn:Ek; [|done]. destruct (get n) eqn:Eg.
      + rewrite (IH _ _ _ _ _ _ H k). split; (intros [?|(i & f' & H1 & H2 & H3)]; [by left|right]).
        * exists (S i), f'. split_and!; [done|done|]. by rewrite Nat.add_succ_r.
        * destruct i as [|i]; simpl in H1; simplify_eq.
          -- rewrite Nat.add_0_r in H3. congruence.
          -- exists i, f'. split_and!; [done|done|]. by rewrite Nat.add_succ_r in H3.
      + destruct (scan keys get (S n) deps _ handles) as [evs' r'] eqn:Es. simplify_eq.
        pose proof (IH _ _ _ _ _ _ Es k) as G. rewrite elem_of_app. destruct (decide (k = k0)) as [->|Hk].
        * split; intros _.
          -- right. exists 0, f. split_and!; [done|done|]. by rewrite Nat.add_0_r.
          -- destruct (missing !! k0); [right; by eauto|left; left; by left].
        * rewrite lookup_insert_ne in G by done. split.
          -- intros [[Hx|Hx]|Hx].
             ++ destruct (missing !! k0); [by apply elem_of_nil in Hx|]. apply elem_of_list_singleton in Hx. by simplify_eq.
             ++ destruct (proj1 G (or_introl Hx)) as [?|(i & f' & H1 & H2 & H3)]; [by left|]. right. exists (S i), f'.
                split_and!; [done|done|]. by rewrite Nat.add_succ_r.
             ++ by left.
          -- intros [?|(i & f' & H1 & H2 & H3)]; [by right|]. destruct i as [|i]; simpl in H1; [simplify_eq|].
             destruct (proj2 G) as [?|?]; [|by left; right|by right]. right. exists i, f'. split_and!; [done|done|].
             by rewrite Nat.add_succ_r in H3.
  Qed.

  (** ** Panics *)
  Lemma start_job_main ok s evs s' : start_job ok s = (evs, s') -> w_main s' = w_main s \/ w_main s' = MainFailed false.
  Proof. unfold start_job. destruct (w_job s) as [[j h]|]; [destruct ok|]; intros; simplify_eq; auto. Qed.
  Lemma panic_step s evs s' : wstep s evs s' -> w_main s' = MainFailed true ->
    w_main s = MainFailed true \/ (w_main s = MainRun /\ is_Some (w_job s) /\ exists j, evs = [EvRecv (WWork j)]).
  Proof.
    intros Hstep Hp. destruct Hstep as [s get stored start_ok m evs s' Hmain H|s evs s' Hmain H|s j results outs i e r lo kills m Hm Hi He H
      |s j results outs rs Hm Hr|s j outs l Hm Hq|s j outs Hm Hq Hs]; try by left.
    - right. destruct m as [j|k| |g|l]; simpl in H.
      + unfold on_work in H. destruct (w_job s) as [[j' h']|] eqn:Ej; [simplify_eq; by eauto|]. exfalso.
        destruct (scan (j_keys j) get 0 (group_deps (j_group j)) ∅ ∅) as [evs' r] eqn:Es. destruct r as [[m h]|]; [|by simplify_eq].
        case_decide; [|simplify_eq; simpl in *; congruence].
        destruct (start_job start_ok _) as [evs2 s2] eqn:Est. simplify_eq. apply start_job_main in Est. simpl in Est. destruct Est; congruence.
      + exfalso. unfold on_provide_file in H. destruct (negb stored); [by simplify_eq|].
        destruct (w_missing s !! k) as [uuids|]; [|by simplify_eq]. destruct (w_job s) as [[j h]|]; [|by simplify_eq].
        case_decide; [|simplify_eq; simpl in *; congruence]. apply start_job_main in H. simpl in H. destruct H; congruence.
      + by simplify_eq.
      + exfalso. unfold on_kill_job in H. destruct (w_job s) as [[j h]|]; [|simplify_eq; congruence].
        destruct (w_boxes s); simplify_eq; congruence.
      + exfalso. unfold on_ask_files in H. destruct (w_sender s); simplify_eq; simpl in *; congruence.
    - unfold on_closed in H. by simplify_eq.
  Qed.
  Lemma no_panic tr s : wreach tr s -> (forall a b, tr = a ++ b -> count is_work a <= count is_get_work a) -> w_main s <> MainFailed true.
  Proof.
    intros Hr. induction Hr as [|tr s evs s' Hr IH Hs]; intros Hw; [done|]. intros Hp.
    destruct (panic_step _ _ _ Hs Hp) as [Hp'|(Hm & Hj & j & ->)].
    - apply IH; [|done]. intros a b ->. apply (Hw a (b ++ evs)). by rewrite app_assoc.
    - pose proof (Hw (tr ++ [EvRecv (WWork j)]) [] ltac:(by rewrite app_nil_r)) as G. rewrite !count_app in G.
      change (count is_work [EvRecv (WWork j)]) with 1 in G. change (count is_get_work [EvRecv (WWork j)]) with 0 in G.
      apply C_reach in Hr as [HC _]. destruct (HC Hm) as [_ HC']. destruct Hj as [x Hj]. rewrite Hj in HC'. lia.
  Qed.

  (** ** Completions *)
  Definition is_run (m : mgr) : nat := match m with MRun _ _ _ => 1 | _ => 0 end.
  Definition D (tr : list wevent) (s : wstate) : Prop := count is_done tr + is_run (w_mgr s) = count is_start tr.
  Lemma D_inert tr s evs s' : D tr s -> Forall (fun e => is_done e = false /\ is_start e = false) evs -> is_run (w_mgr s') = is_run (w_mgr s) ->
    D (tr ++ evs) s'.
  Proof.
    unfold D. intros H He Hm. rewrite !count_app, Hm, !(count_none _ evs); [lia| |]; (eapply Forall_impl; [exact He|]; by intros e []).
  Qed.
  Lemma D_start tr s evs0 ok evs s' : D tr s -> w_mgr s = MIdle -> Forall (fun e => is_done e = false /\ is_start e = false) evs0 ->
    start_job ok s = (evs, s') -> D (tr ++ evs0 ++ evs) s'.
  Proof.
    intros HD Hm He H. unfold start_job in H. assert (D (tr ++ evs0 ++ []) s) as Hn by (rewrite app_nil_r; by apply (D_inert tr s)).
    destruct (w_job s) as [[j h]|]; [destruct ok|]; simplify_eq; [|exact Hn|exact Hn].
    unfold D in *. rewrite app_nil_r, !count_app in *. rewrite Hm in Hn. simpl in *.
    change (count is_done [EvStart j h]) with 0. change (count is_start [EvStart j h]) with 1. lia.
  Qed.
  Lemma idle_of m : busy m = None -> m = MIdle.
  Proof. by destruct m. Qed.
  Lemma D_step tr s evs s' : J tr s -> D tr s -> wstep s evs s' -> D (tr ++ evs) s'.
  Proof.
    intros [_ HJ] HD Hstep. destruct Hstep as [s get stored start_ok m evs s' Hmain H|s evs s' Hmain H|s j results outs i e r lo kills m Hm Hi He H
      |s j results outs rs Hm Hr|s j outs l Hm Hq|s j outs Hm Hq Hs].
    - destruct m as [j|k| |g|l]; simpl in H.
      + unfold on_work in H. destruct (w_job s) as [[j' h']|] eqn:Ej.
        { simplify_eq. apply (D_inert tr s); [done|by repeat constructor|done]. }
        assert (w_mgr s = MIdle) as Hi.
        { apply idle_of. destruct (busy (w_mgr s)); [|done]. destruct HJ as (_ & _ & h & ?). congruence. }
        destruct (scan (j_keys j) get 0 (group_deps (j_group j)) ∅ ∅) as [evs' r] eqn:Es.
        pose proof (scan_events _ _ _ _ _ _ _ _ Es) as (Hask & _).
        assert (Forall (fun e => is_done e = false /\ is_start e = false) (EvRecv (WWork j) :: evs')) as Hin.
        { constructor; [done|]. eapply Forall_impl; [exact Hask|]. by intros e [k ->]. }
        destruct r as [[m h]|]; [|simplify_eq; by apply (D_inert tr s)]. case_decide as Hmis.
        * destruct (start_job start_ok _) as [evs2 s2] eqn:Est. simplify_eq. rewrite app_comm_cons. eapply D_start; [| |exact Hin|exact Est]; done.
        * simplify_eq. by apply (D_inert tr s).
      + unfold on_provide_file in H. assert (Forall (fun e => is_done e = false /\ is_start e = false) [EvRecv (WProvideFile k)]) as Hin by by repeat constructor.
        destruct (negb stored). { simplify_eq. by apply (D_inert tr s). }
        destruct (w_missing s !! k) as [uuids|] eqn:Em; [|simplify_eq; by apply (D_inert tr s)].
        destruct (w_job s) as [[j h]|]; [|simplify_eq; by apply (D_inert tr s)].
        assert (w_mgr s = MIdle) as Hi.
        { apply idle_of. destruct (busy (w_mgr s)); [|done]. destruct HJ as (_ & HJ & _). by rewrite HJ in Em. }
        case_decide.
        * change (EvRecv (WProvideFile k) :: evs) with ([EvRecv (WProvideFile k)] ++ evs). eapply D_start; [| |exact Hin|exact H]; done.
        * simplify_eq. by apply (D_inert tr s).
      + simplify_eq. apply (D_inert tr s); [done|by repeat constructor|done].
      + unfold on_kill_job in H.
        assert (s' = s /\ Forall (fun e => is_done e = false /\ is_start e = false) evs) as [-> Ho].
        { destruct (w_job s) as [[j h]|]; [|by simplify_eq]. destruct (w_boxes s) as [n|]; [|by simplify_eq].
          simplify_eq. split; [done|]. case_decide; [by apply Forall_fmap, Forall_true|constructor]. }
        apply (D_inert tr s); [done|by constructor|done].
      + unfold on_ask_files in H. destruct (w_sender s); simplify_eq.
        * apply (D_inert tr s); [done|by repeat constructor|done].
        * apply (D_inert tr s'); [done|by repeat constructor|done].
    - unfold on_closed in H. simplify_eq. apply (D_inert tr s); [done| |done]. constructor; [done|].
      destruct (w_boxes s); [by apply Forall_fmap, Forall_true|constructor].
    - unfold on_report in H. destruct (get_result_outputs _ _ _ _ _). simplify_eq. apply (D_inert tr s); [done| |by rewrite Hm].
      constructor; [done|]. destruct (is_success _); [constructor|by apply Forall_fmap, Forall_true].
    - unfold D in *. rewrite !count_app. rewrite Hm in HD. simpl in *.
      change (count is_done [EvDone rs outs]) with 1. change (count is_start [EvDone rs outs]) with 0. lia.
    - apply (D_inert tr s); [done| |by rewrite Hm]. apply Forall_app. split; [|by repeat constructor].
      clear. unfold provide. induction l as [|f l IH]; [constructor|]. cbn. destruct (outs !! f); [|exact IH]. constructor; [done|exact IH].
    - apply (D_inert tr s); [done|by repeat constructor|by rewrite Hm].
  Qed.
  Lemma D_reach tr s : wreach tr s -> D tr s.
  Proof. induction 1 as [|tr s evs s' Hr IH Hs]; [done|]. eapply D_step; [by eapply J_reach|done|done]. Qed.
End proofs.
