(** * WorkerProps: C34, C35, C36, C37 *)
From Verif Require Import WorkerSpec WorkerProofs WorkerProofs2 WorkerProofs3 WorkerProofs4.

(** ** C34 *)
(** What is captured is a prefix of the stream. *)
Theorem C34_prefix s count out : capture_stream s (Some count) = Some (Some out) -> out `prefix_of` concat (st_reads s).
Proof.
  simpl. destruct (st_open s); [|done]. intros H. apply fmap_Some in H as (o & H & [= ->]).
  apply capture_loop_prefix in H as (d & -> & Hd). done.
Qed.
(** A stream shorter than [count] is captured completely; reading all of it succeeds. *)
Theorem C34_short_stream s count : st_open s = true -> Forall (fun c => c <> []) (st_reads s) -> st_error s = false ->
  (N.of_nat (length (concat (st_reads s))) < count)%N -> capture_stream s (Some count) = Some (Some (concat (st_reads s))).
Proof. intros Ho Hr He Hl. simpl. rewrite Ho, capture_loop_short, He by done. done. Qed.
(** Of a longer stream at least [count] bytes are captured, also when reading the rest of it would fail. *)
Theorem C34_long_stream s count : st_open s = true -> Forall (fun c => c <> []) (st_reads s) ->
  (count <= N.of_nat (length (concat (st_reads s))))%N ->
  exists out, capture_stream s (Some count) = Some (Some out) /\ (count <= N.of_nat (length out))%N.
Proof.
  intros Ho Hr Hl. simpl. rewrite Ho. destruct (capture_loop_long count (st_reads s) (st_error s) [] Hr Hl) as (out & -> & ?).
  exists out. done.
Qed.
(** The captured size is below [count] plus the size of the buffer (1024 in the code). *)
Theorem C34_bounded_partial s count buffer out : Forall (fun c => length c <= buffer) (st_reads s) ->
  capture_stream s (Some count) = Some (Some out) -> (N.of_nat (length out) < count + N.of_nat buffer)%N \/ out = [].
Proof.
  intros Hb H. simpl in H. destruct (st_open s); [|done]. apply fmap_Some in H as (o & H & [= ->]).
  eapply capture_loop_bound in H; [|exact Hb|by right]. destruct H as [?|?%nil_length_inv]; [by left|by right].
Qed.
(** The documented bound is wrong: 1024 bytes are captured when 1 is wanted. *)
Theorem C34_at_most_count_refuted : exists s count out, Forall (fun c => c <> [] /\ length c <= 1024) (st_reads s) /\
  capture_stream s (Some count) = Some (Some out) /\ ~ (N.of_nat (length out) <= count)%N.
Proof.
  exists (Stream true [replicate 1024 65%N] false), 1%N, (replicate 1024 65%N). split; [|split].
  - apply Forall_singleton. split; [done|]. by rewrite replicate_length.
  - by vm_compute.
  - rewrite replicate_length. lia.
Qed.
(** Nothing is captured (and nothing is read) if it was not asked. *)
Theorem C34_not_asked s : capture_stream s None = Some None.
Proof. done. Qed.
Example C34_example : capture_stream (Stream true [[72%N; 105%N]; [33%N]] false) (Some 2%N) = Some (Some [72%N; 105%N]) /\
  capture_stream (Stream true [[72%N; 105%N]; [33%N]] false) (Some 3%N) = Some (Some [72%N; 105%N; 33%N]) /\
  capture_stream (Stream true [[72%N; 105%N]] true) (Some 3%N) = None.
Proof. by vm_compute. Qed.
Print Assumptions C34_prefix. Print Assumptions C34_short_stream. Print Assumptions C34_long_stream.
Print Assumptions C34_bounded_partial. Print Assumptions C34_at_most_count_refuted. Print Assumptions C34_not_asked.

Section worker.
  (** The key of the empty file. *)
  Context (empty_key : store_key).
  Local Notation wstep := (wstep empty_key). Local Notation wreach := (wreach empty_key).

  Lemma since_work_unique tr j b j' b' : since_work tr j b -> since_work tr j' b' -> j = j' /\ b = b'.
  Proof.
    intros (a & -> & Hb) (a' & Heq & Hb'). revert a' Heq. induction a as [|x a IH]; intros [|x' a'] Heq; simpl in Heq; simplify_eq; [done| | |by eauto].
    - apply Forall_app in Hb as [_ Hb]. inversion Hb; done.
    - apply Forall_app in Hb' as [_ Hb']. inversion Hb'; done.
  Qed.
  Lemma seg_of tr s j b : wreach tr s -> since_work tr j b -> seg j b s.
  Proof.
    intros Hr Hw. destruct (K_reach _ _ _ Hr) as [(Hn & _)|(j' & b' & Hw' & Hs)].
    - destruct Hw as (a & -> & _). apply Forall_app in Hn as [_ Hn]. inversion Hn; done.
    - by destruct (since_work_unique _ _ _ _ _ Hw Hw') as [-> ->].
  Qed.

  (** ** C35 *)
  (** For one job a file is never asked twice, and only files of the job are asked. *)
  Theorem C35_asked_once tr s j b : wreach tr s -> since_work tr j b ->
    NoDup (omap asked b) /\ forall k, EvAsk k ∈ b -> exists f, f ∈ group_deps (j_group j) /\ j_keys j !! f = Some k.
  Proof. intros Hr Hw. by destruct (seg_of tr s j b Hr Hw) as [H _]. Qed.
  (** When a job is received by a worker without one, the files asked are exactly those that the store does not have ([get i]
      tells whether the store has the i-th dependency).  Otherwise the worker stops: a key is missing. *)
  Theorem C35_asked_missing get stored ok j s evs s' : w_job s = None ->
    on_msg get stored ok (WWork j) s = (evs, s') ->
    (exists f, f ∈ group_deps (j_group j) /\ j_keys j !! f = None /\ w_main s' = MainFailed false) \/
    (forall k, EvAsk k ∈ evs <-> exists i f, group_deps (j_group j) !! i = Some f /\ j_keys j !! f = Some k /\ get i = false).
  Proof.
    intros Hj H. simpl in H. unfold on_work in H. rewrite Hj in H.
    destruct (scan (j_keys j) get 0 (group_deps (j_group j)) ∅ ∅) as [evs' r] eqn:Es. destruct r as [[m h]|].
    - right. pose proof (scan_asks _ _ _ _ _ _ _ _ _ Es) as Ha. intros k. specialize (Ha k). rewrite lookup_empty in Ha. simpl in Ha.
      assert (EvAsk k ∈ evs <-> EvAsk k ∈ evs') as ->.
      { case_decide; [|by simplify_eq]. destruct (start_job ok _) as [evs2 s2] eqn:Est. simplify_eq. rewrite elem_of_app.
        split; [|by left]. intros [?|Hk]; [done|]. unfold start_job in Est. simpl in Est. destruct ok; simplify_eq.
        - apply elem_of_list_singleton in Hk. done.
        - by apply elem_of_nil in Hk. }
      split.
      + intros Hk. destruct (proj1 Ha (or_introl Hk)) as [[? ?]|?]; done.
      + intros Hk. destruct (proj2 Ha (or_intror Hk)) as [?|[? ?]]; done.
    - left. simplify_eq. cut (forall n m h evs, scan (j_keys j) get n (group_deps (j_group j)) m h = (evs, None) ->
        exists f, f ∈ group_deps (j_group j) /\ j_keys j !! f = None).
      { intros Hc. destruct (Hc _ _ _ _ Es) as (f & ? & ?). exists f. done. }
      clear. induction (group_deps (j_group j)) as [|f deps IH]; intros n m h evs H; simpl in H; [done|].
      destruct (j_keys j !! f) as [k|] eqn:Ek; [|exists f; split; [by left|done]].
      assert (exists n m h evs, scan (j_keys j) get n deps m h = (evs, None)) as (? & ? & ? & ? & G).
      { destruct (get n); [by eauto|]. destruct (scan _ _ (S n) deps _ _) as [evs' r'] eqn:Es. simplify_eq. eauto. }
      apply IH in G as (f' & ? & ?). exists f'. split; [by right|done].
  Qed.
  (** Since a job was received at most one job was started, it is that one, all its dependencies are there and every file
      that was asked arrived. *)
  Theorem C35_started_once tr s j b : wreach tr s -> since_work tr j b ->
    omap started b = [] \/
    exists h, omap started b = [(j, h)] /\
      (forall f, f ∈ group_deps (j_group j) -> exists k, j_keys j !! f = Some k /\ h !! f = Some k) /\
      (forall k, EvAsk k ∈ b -> EvRecv (WProvideFile k) ∈ b).
  Proof.
    intros Hr Hw. destruct (seg_of tr s j b Hr Hw) as [_ H].
    destruct (w_main s); [destruct H as [[(h & _ & _ & H & _) _]|[[(h & H & Hi) Hl] _]]|destruct H as [H|[(h & H & Hi) Hl]]..]; eauto.
  Qed.
  (** As long as the worker is alive: the job was not started iff a file that was asked did not arrive. *)
  Theorem C35_started_iff_inputs tr s j b : wreach tr s -> since_work tr j b -> w_main s = MainRun ->
    (omap started b = [] <-> exists k, EvAsk k ∈ b /\ EvRecv (WProvideFile k) ∉ b).
  Proof.
    intros Hr Hw Hm. destruct (seg_of tr s j b Hr Hw) as [_ H]. rewrite Hm in H. destruct H as [[(h & _ & _ & H & Hk & _) Hne]|[[(h & H & _) Hl] _]].
    - split; [|done]. intros _. apply map_choose in Hne as (k & fs & Hf). exists k. apply Hk. eauto.
    - rewrite H. split; [done|]. intros (k & Hk & Hn). by apply Hl in Hk.
  Qed.
  (** No job is started before the first one is received. *)
  Theorem C35_no_start_before_work tr s : wreach tr s -> Forall (fun e => is_work e = false) tr -> omap started tr = [].
  Proof.
    intros Hr Hn. destruct (K_reach _ _ _ Hr) as [(_ & H & _)|(j & b & (a & -> & _) & _)]; [done|].
    apply Forall_app in Hn as [_ Hn]. inversion Hn; done.
  Qed.
  (** Work is asked only when nothing is running: as many times (plus the first one) as the jobs started that are over and
      whose files were asked. *)
  Theorem C35_get_work_idle tr s : wreach tr s ->
    count is_get_work tr + count is_dropped tr = count is_start tr + (if running tr then 0 else 1).
  Proof.
    intros Hr. destruct (C_reach _ _ _ Hr) as [_ H]. destruct (J_reach _ _ _ Hr) as [-> _]. destruct (busy (w_mgr s)); lia.
  Qed.
  (** As long as the worker is alive it asked for work once more than it received it, unless it has a job. *)
  Theorem C35_get_work_alternates tr s : wreach tr s -> w_main s = MainRun ->
    count is_get_work tr = count is_work tr + (if w_job s then 0 else 1) /\ (w_job s = None -> running tr = None).
  Proof.
    intros Hr Hm. destruct (C_reach _ _ _ Hr) as [H _]. destruct (H Hm) as [_ G]. destruct (J_reach _ _ _ Hr) as [-> HJ]. split.
    - destruct (w_job s); lia.
    - intros Hj. destruct (busy (w_mgr s)); [|done]. destruct HJ as (_ & _ & h & ?). congruence.
  Qed.
  (** If the server sends work only when it is asked, the worker never panics. *)
  Theorem C35_no_panic tr s : wreach tr s -> (forall a b, tr = a ++ b -> count is_work a <= count is_get_work a) ->
    w_main s <> MainFailed true.
  Proof. apply no_panic. Qed.

  (** ** C36 *)
  (** The results are one per execution, in the order of the group; each is the result of that execution, which reported
      once, whatever the order of the reports. *)
  Theorem C36_results_in_order tr s j b rs outs : wreach tr s -> since_start tr j b -> EvDone rs outs ∈ b ->
    length rs = length (g_execs (j_group j)) /\
    forall i e, g_execs (j_group j) !! i = Some e ->
      exists x r lo, rs !! i = Some x /\ EvReport i r lo ∈ b /\ final_result e r lo x.
  Proof.
    intros Hr Hs Hd. destruct (S_reach _ _ _ Hr j b Hs) as (_ & _ & _ & _ & H & _). destruct (H rs outs Hd) as [[Hl Hx] _].
    rewrite map_length in Hl. split; [done|]. intros i e He. specialize (Hx i e He). rewrite list_lookup_fmap in Hx.
    destruct (rs !! i) as [x|]; simpl in Hx; [|done]. destruct Hx as (r & lo & ? & ?). eauto 6.
  Qed.
  Theorem C36_one_report tr s j b : wreach tr s -> since_start tr j b ->
    NoDup (omap reported b) /\ forall i, i ∈ omap reported b -> i < length (g_execs (j_group j)).
  Proof. intros Hr Hs. by destruct (S_reach _ _ _ Hr j b Hs) as (_ & _ & H1 & H2 & _). Qed.
  (** Every started group is completed at most once. *)
  Theorem C36_one_completion tr s : wreach tr s ->
    count is_done tr <= count is_start tr <= count is_done tr + 1 /\ (running tr = None -> count is_done tr = count is_start tr).
  Proof.
    intros Hr. pose proof (D_reach _ _ _ Hr) as HD. unfold D in HD. destruct (J_reach _ _ _ Hr) as [-> _].
    destruct (w_mgr s); simpl in *; split; try done; lia.
  Qed.
  (** As soon as an execution fails, every execution that did not report before is killed. *)
  Theorem C36_failure_kills tr s j b1 i r lo b2 e x : wreach tr s -> since_start tr j (b1 ++ EvReport i r lo :: b2) ->
    g_execs (j_group j) !! i = Some e -> res_status (compute_execution_result e r lo) <> Success ->
    x <> i -> x < length (g_execs (j_group j)) -> x ∉ omap reported b1 -> EvKill x ∈ b2.
  Proof.
    intros Hr Hs He Hf Hx Hl Hn. destruct (S_reach _ _ _ Hr j _ Hs) as (_ & H & _). by apply (H b1 i r lo b2 e x).
  Qed.
  (** An execution is killed only because another one failed before it reported. *)
  Theorem C36_kills_only_on_failure tr s j b x : wreach tr s -> since_start tr j b -> EvKill x ∈ b ->
    exists b1 i r lo b2 e, b = b1 ++ EvReport i r lo :: b2 /\ EvKill x ∈ b2 /\ g_execs (j_group j) !! i = Some e /\
      res_status (compute_execution_result e r lo) <> Success /\ x <> i /\ x ∉ omap reported b1 /\ x < length (g_execs (j_group j)).
  Proof. intros Hr Hs Hk. destruct (S_reach _ _ _ Hr j b Hs) as (H & _). by apply H. Qed.
  (** The outputs told to the server are those that the executions left (a missing one is empty), all of them except those
      that cannot be read. *)
  Theorem C36_outputs tr s j b rs outs : wreach tr s -> since_start tr j b -> EvDone rs outs ∈ b ->
    (forall f k, outs !! f = Some k -> exists i e r lo, g_execs (j_group j) !! i = Some e /\ EvReport i r lo ∈ b /\ f ∈ outputs e /\
       key_of empty_key (lo_file lo f) = Some k) /\
    (forall i e r lo f, g_execs (j_group j) !! i = Some e -> EvReport i r lo ∈ b -> f ∈ outputs e -> lo_file lo f <> DUnreadable ->
       is_Some (outs !! f)).
  Proof.
    intros Hr Hs Hd. destruct (S_reach _ _ _ Hr j b Hs) as (_ & _ & _ & _ & H & _). by destruct (H rs outs Hd) as [_ Hx].
  Qed.

  Lemma provide_head outs l (e : wevent) evs : provide outs l ++ [EvGetWork] = e :: evs -> (exists f k, e = EvProvide f k) \/ e = EvGetWork.
  Proof.
    intros H. assert (e ∈ provide outs l ++ [EvGetWork]) as He by (rewrite H; by left).
    apply elem_of_app in He as [He|He%elem_of_list_singleton]; [|by right]. left. unfold provide in He.
    apply elem_of_list_omap in He as (f & _ & Hf). destruct (outs !! f); [|done]. simpl in Hf. simplify_eq. eauto.
  Qed.

  (** ** C37 *)
  (** A stop request changes nothing but the sandboxes: all those of the group are killed if it is the running one, none
      otherwise. *)
  Theorem C37_stop tr s g evs s' : wreach tr s -> wstep s (EvRecv (WKillJob g) :: evs) s' ->
    s' = s /\ evs = match running tr with
                    | Some j => if decide (g_uuid (j_group j) = g) then map EvStopKill (seq 0 (length (g_execs (j_group j)))) else []
                    | None => [] end.
  Proof.
    intros Hr Hs. destruct (J_reach _ _ _ Hr) as [HJ1 HJ2]. inversion Hs as [? get stored ok m evs' ? Hm H| | | | |]; subst.
    - simpl in H. unfold on_kill_job in H. rewrite HJ1. destruct (busy (w_mgr s)) as [j|].
      + destruct HJ2 as (Hb & _ & h & Hj). rewrite Hb, Hj in H. by simplify_eq.
      + rewrite HJ2 in H. destruct (w_job s) as [[j h]|]; by simplify_eq.
    - exfalso. match goal with H : provide _ _ ++ _ = _ |- _ => apply provide_head in H as [(? & ? & ?)|?] end; done.
  Qed.
  (** Nothing else stops a sandbox except the end of the connection, which stops all those that run. *)
  Theorem C37_only_cause tr s e evs s' x : wreach tr s -> wstep s (e :: evs) s' -> EvStopKill x ∈ e :: evs ->
    (exists g, e = EvRecv (WKillJob g)) \/ (e = EvClosed /\ is_Some (running tr)).
  Proof.
    intros Hr Hs Hx. destruct (J_reach _ _ _ Hr) as [HJ1 HJ2]. inversion Hs as [? get stored ok m evs' ? Hm H|? ? ? Hm H|? ? ? ? ? ? ? ? ? ? ? ? ? H| | |]; subst.
    - left. destruct m as [j|k| |g|l]; simpl in H; [| | |by eauto|].
      + exfalso. apply elem_of_cons in Hx as [?|Hx]; [done|]. unfold on_work in H. destruct (w_job s) as [[j' h']|]; [simplify_eq; by apply elem_of_nil in Hx|].
        destruct (scan (j_keys j) get 0 (group_deps (j_group j)) ∅ ∅) as [evs' r] eqn:Es.
        pose proof (scan_events _ _ _ _ _ _ _ _ Es) as (Hask & _).
        assert (EvStopKill x ∉ evs') as Hn. { intros Hin. rewrite Forall_forall in Hask. by destruct (Hask _ Hin) as [k ?]. }
        destruct r as [[m h]|]; [|by simplify_eq]. case_decide; [|by simplify_eq].
        destruct (start_job ok _) as [evs2 s2] eqn:Est. simplify_eq. apply elem_of_app in Hx as [?|Hx]; [done|].
        unfold start_job in Est. simpl in Est. destruct ok; simplify_eq; [apply elem_of_list_singleton in Hx; done|by apply elem_of_nil in Hx].
      + exfalso. apply elem_of_cons in Hx as [?|Hx]; [done|]. unfold on_provide_file in H.
        destruct (negb stored); [simplify_eq; by apply elem_of_nil in Hx|].
        destruct (w_missing s !! k); [|simplify_eq; by apply elem_of_nil in Hx].
        destruct (w_job s) as [[j h]|]; [|simplify_eq; by apply elem_of_nil in Hx].
        case_decide; [|simplify_eq; by apply elem_of_nil in Hx]. unfold start_job in H. simpl in H.
        destruct ok; simplify_eq; [apply elem_of_list_singleton in Hx; done|by apply elem_of_nil in Hx].
      + exfalso. simplify_eq. apply elem_of_list_singleton in Hx. done.
      + exfalso. unfold on_ask_files in H. destruct (w_sender s); simplify_eq; apply elem_of_list_singleton in Hx; done.
    - right. split; [done|]. rewrite HJ1. unfold on_closed in H. simplify_eq. apply elem_of_cons in Hx as [?|Hx]; [done|].
      destruct (busy (w_mgr s)); [by eauto|]. rewrite HJ2 in Hx. by apply elem_of_nil in Hx.
    - exfalso. apply elem_of_cons in Hx as [?|Hx]; [done|]. unfold on_report in H. destruct (get_result_outputs _ _ _ _ _). simplify_eq.
      destruct (is_success _); [by apply elem_of_nil in Hx|]. apply elem_of_list_fmap in Hx as (? & ? & _). done.
    - exfalso. apply elem_of_list_singleton in Hx. done.
    - exfalso. match goal with H : provide _ _ ++ _ = _ |- _ => rewrite <- H in Hx end. apply elem_of_app in Hx as [Hx|Hx%elem_of_list_singleton]; [|done].
      unfold provide in Hx. apply elem_of_list_omap in Hx as (f & _ & Hf). destruct (outs !! f); done.
    - exfalso. apply elem_of_list_singleton in Hx. done.
  Qed.
  Theorem C37_closed tr s evs s' : wreach tr s -> wstep s (EvClosed :: evs) s' ->
    w_main s' = MainEnd /\ evs = match running tr with Some j => map EvStopKill (seq 0 (length (g_execs (j_group j)))) | None => [] end.
  Proof.
    intros Hr Hs. destruct (J_reach _ _ _ Hr) as [HJ1 HJ2]. inversion Hs as [|? ? ? Hm H| | | |]; subst.
    - unfold on_closed in H. simplify_eq. split; [done|]. rewrite HJ1. destruct (busy (w_mgr s)); [|by rewrite HJ2]. by destruct HJ2 as [-> _].
    - exfalso. match goal with H : provide _ _ ++ _ = _ |- _ => apply provide_head in H as [(? & ? & ?)|?] end; done.
  Qed.
End worker.

(** ** Running the worker *)
Inductive winput := IMsg (get : nat -> bool) (stored start_ok : bool) (m : wmsg) | IClosed
  | IReport (i : nat) (r : sandbox_result) (lo : leftovers) | IDone | IFiles.
Definition winput_step (s : wstate) (i : winput) : option (list wevent * wstate) :=
  match i, w_mgr s with
  | IMsg get stored start_ok m, _ => match w_main s with MainRun => let '(evs, s') := on_msg get stored start_ok m s in Some (EvRecv m :: evs, s') | _ => None end
  | IClosed, _ => match w_main s with MainRun => let '(evs, s') := on_closed s in Some (EvClosed :: evs, s') | _ => None end
  | IReport i r lo, MRun j results outs =>
    match results !! i, g_execs (j_group j) !! i with
    | Some None, Some e => let '(kills, m) := on_report 1%positive j results outs i e r lo in Some (EvReport i r lo :: kills, set_mgr m s)
    | _, _ => None
    end
  | IDone, MRun j results outs =>
    match mapM id results with Some rs => Some ([EvDone rs outs], set_mgr (MWait j outs) s) | None => None end
  | IFiles, MWait j outs => match w_queue s with Some l => Some (provide outs l ++ [EvGetWork], reset_job s) | None => None end
  | _, _ => None
  end.
Lemma winput_step_ok s i evs s' : winput_step s i = Some (evs, s') -> wstep 1%positive s evs s'.
Proof.
  destruct i as [get stored ok m| |i r lo| |]; simpl.
  - destruct (w_main s) eqn:Em; try done. destruct (on_msg get stored ok m s) eqn:E. intros. simplify_eq. by econstructor.
  - destruct (w_main s) eqn:Em; try done. destruct (on_closed s) eqn:E. intros. simplify_eq. by econstructor.
  - destruct (w_mgr s) as [|j results outs|] eqn:Em; try done. destruct (results !! i) as [[|]|] eqn:Er; try done.
    destruct (g_execs (j_group j) !! i) eqn:Ee; try done. destruct (on_report _ _ _ _ _ _ _ _) eqn:E. intros. simplify_eq. by econstructor.
  - destruct (w_mgr s) as [|j results outs|] eqn:Em; try done. destruct (mapM id results) as [rs|] eqn:E; [|done]. intros. simplify_eq.
    econstructor; [done|]. clear Em. revert rs E. induction results as [|[x|] results IH]; intros rs E; [by injection E as <-| |done].
    change (mapM id (Some x :: results)) with (rs' ← mapM id results; Some (x :: rs')) in E.
    apply bind_Some in E as (rs' & E & [= <-]). simpl. f_equal. by apply IH.
  - destruct (w_mgr s) eqn:Em; try done. destruct (w_queue s) eqn:Eq; [|done]. intros. simplify_eq. by econstructor.
Qed.
Fixpoint wrun (tr : list wevent) (s : wstate) (l : list winput) : option (list wevent * wstate) :=
  match l with
  | [] => Some (tr, s)
  | i :: l => match winput_step s i with Some (evs, s') => wrun (tr ++ evs) s' l | None => None end
  end.
Lemma wrun_ok tr s l tr' s' : wreach 1%positive tr s -> wrun tr s l = Some (tr', s') -> wreach 1%positive tr' s'.
Proof.
  revert tr s. induction l as [|i l IH]; intros tr s Hr H; simpl in H; [by simplify_eq|].
  destruct (winput_step s i) as [[evs s2]|] eqn:E; [|done]. apply IH in H; [done|]. econstructor; [done|]. by apply (winput_step_ok s i).
Qed.

(** ** Examples: a group of two executions, the second reads the file 2 (key 12) and both the file 3 (key 13). *)
Definition ex_limits : limits := Limits None None None None false None None None None true false false [].
Definition ex_exec (u : exec_uuid) (stdin : option file_uuid) (stdout : file_uuid) (ins : list (path * exec_input)) : execution :=
  Execution u (System "cat") [] stdin (Some stdout) None None None ins [] None None None [] [] ex_limits
    (DagConfig false CacheEverything 0 0 0) None 0.
Definition ex_job : wjob :=
  WJob (Group 5 [ex_exec 1 (Some 3%positive) 4 []; ex_exec 2 (Some 3%positive) 6 [("a.out", ExecInput 2 true)]] [])
    {[2%positive := 12%positive; 3%positive := 13%positive]}.
Definition ex_lo (f1 f2 : disk_file) : leftovers :=
  Leftovers (Stream false [] false) (Stream false [] false) (fun f => if decide (f = 4%positive) then f1 else f2).
Definition ok_box : sandbox_result := SbSuccess 0 None no_resources false.
Definition bad_box : sandbox_result := SbSuccess 1 None no_resources false.
Definition have_nothing : nat -> bool := fun _ => false.
Definition ex_msg (m : wmsg) : winput := IMsg have_nothing true true m.
(** What matters of a trace in the examples. *)
Inductive brief := BAsk (k : store_key) | BStart | BKill (i : nat) | BStop (i : nat) | BDone (l : list status) | BProvide (f : file_uuid) (k : store_key) | BGetWork.
Definition brief_of (e : wevent) : option brief :=
  match e with
  | EvAsk k => Some (BAsk k) | EvStart _ _ => Some BStart | EvKill i => Some (BKill i) | EvStopKill i => Some (BStop i)
  | EvDone rs _ => Some (BDone (map res_status rs)) | EvProvide f k => Some (BProvide f k) | EvGetWork => Some BGetWork | _ => None
  end.
Definition ex_brief (l : list winput) : option (list brief) :=
  match wrun [EvGetWork] w_init l with Some (tr, _) => Some (omap brief_of tr) | None => None end.
Definition ex_start : list winput := [ex_msg (WWork ex_job); ex_msg (WProvideFile 13); ex_msg (WProvideFile 12)].
(** Completed in the reverse order; the file 4 is sent back, the other one was not written. *)
Example C35_C36_example :
  ex_brief (ex_start ++ [IReport 1 ok_box (ex_lo DAbsent DAbsent); IReport 0 ok_box (ex_lo (DPresent 44) DAbsent); IDone;
                         ex_msg (WAskFiles [4%positive]); IFiles])
  = Some [BGetWork; BAsk 13; BAsk 12; BStart; BDone [Success; Success]; BProvide 4 44; BGetWork].
Proof. by vm_compute. Qed.
(** The failure of the second one kills the first one. *)
Example C36_failure_example :
  ex_brief (ex_start ++ [IReport 1 bad_box (ex_lo DAbsent DAbsent); IReport 0 ok_box (ex_lo DAbsent DAbsent); IDone])
  = Some [BGetWork; BAsk 13; BAsk 12; BStart; BKill 0; BDone [Success; ReturnCode 1]].
Proof. by vm_compute. Qed.
(** A stop: of the running job, of another one, before the start. *)
Example C37_example :
  ex_brief (ex_start ++ [ex_msg (WKillJob 6); ex_msg (WKillJob 5)]) = Some [BGetWork; BAsk 13; BAsk 12; BStart; BStop 0; BStop 1].
Proof. by vm_compute. Qed.

(** C36: an execution whose output cannot be read is reported as failed, but the other ones are not killed. *)
Theorem C36_unreadable_output_refuted : exists tr s j b1 i r lo b2 rs outs, wreach 1%positive tr s /\
  since_start tr j (b1 ++ EvReport i r lo :: b2) /\ length (g_execs (j_group j)) = 2 /\ omap reported b1 = [] /\
  EvDone rs outs ∈ b2 /\ (exists x, rs !! i = Some x /\ res_status x <> Success) /\ forall x, EvKill x ∉ b2.
Proof.
  destruct (wrun [EvGetWork] w_init (ex_start ++ [IReport 0 ok_box (ex_lo DUnreadable DAbsent); IReport 1 ok_box (ex_lo DUnreadable DAbsent); IDone]))
    as [[tr s]|] eqn:E; [|by vm_compute in E].
  exists tr, s. pose proof (wrun_ok _ _ _ _ _ (wr_init _) E) as Hr. vm_compute in E. injection E as <- <-.
  eexists _, [], 0, _, _, [_; EvDone [_; _] _], _, _. split; [exact Hr|]. split.
  { eexists [_; _; _; _; _; _], _. split; [reflexivity|]. by repeat constructor. }
  split; [done|]. split; [done|]. split; [right; by left|]. split; [by eexists; split|].
  intros x Hx. apply elem_of_list_In in Hx. simpl in Hx. by repeat destruct Hx as [Hx|Hx].
Qed.
(** C37: a sandbox that already ended is signalled too (its process id may have been given to another process). *)
Theorem C37_stop_after_end_refuted : exists tr s j b1 i r lo b2, wreach 1%positive tr s /\
  since_start tr j (b1 ++ EvReport i r lo :: b2) /\ EvStopKill i ∈ b2.
Proof.
  destruct (wrun [EvGetWork] w_init (ex_start ++ [IReport 0 ok_box (ex_lo DAbsent DAbsent); ex_msg (WKillJob 5)])) as [[tr s]|] eqn:E; [|by vm_compute in E].
  exists tr, s. pose proof (wrun_ok _ _ _ _ _ (wr_init _) E) as Hr. vm_compute in E. injection E as <- <-.
  eexists _, [], 0, _, _, [_; _; _]. split; [exact Hr|]. split.
  { eexists [_; _; _; _; _; _], _. split; [reflexivity|]. by repeat constructor. }
  right. by left.
Qed.
(** C37: a stop request that arrives while the inputs are being received is ignored: the job is started later. *)
Theorem C37_stop_before_start_refuted : exists tr s j a b, wreach 1%positive tr s /\
  tr = a ++ EvRecv (WKillJob (g_uuid (j_group j))) :: b /\ EvRecv (WWork j) ∈ a /\ omap started a = [] /\ exists h, EvStart j h ∈ b.
Proof.
  destruct (wrun [EvGetWork] w_init [ex_msg (WWork ex_job); ex_msg (WKillJob 5); ex_msg (WProvideFile 13); ex_msg (WProvideFile 12)]) as [[tr s]|] eqn:E; [|by vm_compute in E].
  exists tr, s. pose proof (wrun_ok _ _ _ _ _ (wr_init _) E) as Hr. vm_compute in E. injection E as <- <-.
  exists ex_job; eexists [_; _; _; _], _. split; [exact Hr|]. split; [reflexivity|]. split; [right; by left|]. split; [done|].
  eexists. right. right. by left.
Qed.
Print Assumptions C35_asked_once. Print Assumptions C35_asked_missing. Print Assumptions C35_started_once.
Print Assumptions C35_started_iff_inputs. Print Assumptions C35_no_start_before_work. Print Assumptions C35_get_work_idle.
Print Assumptions C35_get_work_alternates. Print Assumptions C35_no_panic.
Print Assumptions C36_results_in_order. Print Assumptions C36_one_report. Print Assumptions C36_one_completion.
Print Assumptions C36_failure_kills. Print Assumptions C36_kills_only_on_failure. Print Assumptions C36_outputs.
Print Assumptions C37_stop. Print Assumptions C37_only_cause. Print Assumptions C37_closed.
Print Assumptions C36_unreadable_output_refuted. Print Assumptions C37_stop_after_end_refuted. Print Assumptions C37_stop_before_start_refuted.
