(** The view of a group along external steps; the traces of all submitted groups. *)
From Verif Require Import SchedSpec SchedSteps SchedWalk SchedExt SchedReach SchedView CheckDagProofs CheckDagProofs2.
Local Arguments mu : simpl never.

(** The client an event is about (a status can be requested by anybody). *)
Definition ev_client (ev : event) : option client_uuid :=
  match ev with
  | ERecv _ | EStop _ _ | ESend _ (MStatus _ _ _) => None
  | ESend c _ | EJob _ c _ _ | ECacheInsert c _ _ _ | ECompleted c _ _ _ _ | ESkip c _ | ELost c _ _ => Some c
  end.
Lemma about_ev_client c g ev : about c g ev -> ev_client ev = Some c.
Proof. destruct ev; simpl; try done; by intros [-> _]. Qed.

Lemma step_events x x' : step x x' -> exists l, s_log (x_s x') = s_log (x_s x) ++ l /\
  forall ev c, ev ∈ l -> ev_client ev = Some c -> is_Some (s_clients (x_s x) !! c).
Proof.
  intros [Hst|Hst].
  - destruct Hst; simpl; try (exists []; rewrite app_nil_r; split; [done|]; intros ev c0 Hev; by apply not_elem_of_nil in Hev);
      (eexists; split; [reflexivity|]).
    + intros ev c0 Hev. apply elem_of_list_singleton in Hev as ->. intros [= <-]. eauto.
    + intros ev c0 Hev. apply elem_of_cons in Hev as [->|Hev]; [intros [= <-]; eauto|].
      apply notify_ESend in Hev as (e&_&_&->). intros [= <-]. eauto.
    + intros ev c0 Hev. apply elem_of_cons in Hev as [->|Hev]; [intros [= <-]; eauto|].
      apply notify_ESend in Hev as (e&_&_&->). intros [= <-]. eauto.
    + intros ev c0 Hev. apply elem_of_cons in Hev as [->|Hev]; [intros [= <-]; eauto|].
      apply notify_done_ESend in Hev as (e&r&_&_&->). intros [= <-]. eauto.
  - destruct Hst; simpl; try (exists []; rewrite app_nil_r; split; [done|]; intros ev c0 Hev; by apply not_elem_of_nil in Hev);
      try rewrite completed_log; (eexists; split; [reflexivity|]).
    + intros ev c0 Hev. by apply elem_of_list_singleton in Hev as ->.
    + intros ev c0 Hev. by apply elem_of_list_singleton in Hev as ->.
    + intros ev c0 Hev. by apply elem_of_list_singleton in Hev as ->.
    + intros ev c0 Hev. apply elem_of_app in Hev as [Hev|Hev].
      * apply elem_of_cons in Hev as [->|Hev]; [intros [= <-]; eauto|].
        apply notify_done_ESend in Hev as (e&r&_&_&->). intros [= <-]. eauto.
      * destruct (any_internal results); [by apply not_elem_of_nil in Hev|].
        apply elem_of_list_singleton in Hev as ->. intros [= <-]. eauto.
    + intros ev c0 Hev. apply elem_of_list_singleton in Hev as ->. intros [= <-]. eauto.
    + intros ev c0 Hev. apply elem_of_app in Hev as [Hev|Hev].
      * unfold farewell in Hev. destruct (s_clients s !! c) as [cl|] eqn:Ec; [destruct (is_done cl)|];
          try (by apply not_elem_of_nil in Hev). apply elem_of_list_singleton in Hev as ->. intros [= <-]. eauto.
      * unfold stops in Hev. apply elem_of_list_bind in Hev as ([w [[o g]|]]&Hev&_); simpl in Hev; [|by apply not_elem_of_nil in Hev].
        case_bool_decide; [|by apply not_elem_of_nil in Hev]. by apply elem_of_list_singleton in Hev as ->.
    + intros ev c0 Hev. by apply elem_of_list_singleton in Hev as ->.
    + intros ev c0 Hev. apply elem_of_list_singleton in Hev as ->. intros [= <-]. eauto.
Qed.

(** Submissions are unique, and events only concern clients that submitted a DAG. *)
Record subs (x : cfg) : Prop := {
  sb_uniq : forall c d cb d' cb', ERecv (EvaluateDAG c d cb) ∈ s_log (x_s x) -> ERecv (EvaluateDAG c d' cb') ∈ s_log (x_s x) ->
    d' = d /\ cb' = cb;
  sb_valid : forall c d cb, ERecv (EvaluateDAG c d cb) ∈ s_log (x_s x) -> valid_dag d;
  sb_ev : forall ev c, ev ∈ s_log (x_s x) -> ev_client ev = Some c -> exists d cb, ERecv (EvaluateDAG c d cb) ∈ s_log (x_s x)
}.

(** Only a submission logs a submission. *)
Lemma istep_no_recv x x' : istep x x' -> exists l, s_log (x_s x') = s_log (x_s x) ++ l /\ forall m, ERecv m ∉ l.
Proof.
  intros Hst. destruct Hst; simpl;
    try (exists []; rewrite app_nil_r; split; [done|]; intros m Hev; by apply not_elem_of_nil in Hev);
    (eexists; split; [reflexivity|]); intros m9 Hev.
  - by apply elem_of_list_singleton in Hev.
  - apply elem_of_cons in Hev as [?|Hev]; [done|]. by apply notify_ESend in Hev as (?&_&_&?).
  - apply elem_of_cons in Hev as [?|Hev]; [done|]. by apply notify_ESend in Hev as (?&_&_&?).
  - apply elem_of_cons in Hev as [?|Hev]; [done|]. by apply notify_done_ESend in Hev as (?&?&_&_&?).
Qed.
Lemma xstep_recv x x' : xstep x x' -> exists l, s_log (x_s x') = s_log (x_s x) ++ l /\
  ((forall m, ERecv m ∉ l) \/ exists m, l = [ERecv m] /\ forall c d cb, m = EvaluateDAG c d cb ->
     valid_dag d /\ (forall d' cb', ERecv (EvaluateDAG c d' cb') ∉ s_log (x_s x)) /\
     exists cl, s_clients (x_s x') !! c = Some cl /\ cl_dag cl = d /\ cl_cb cl = cb).
Proof.
  intros Hst. destruct Hst as [s m Hm Hm2|s c d cb cl q Hd Hf Hs|s c cl f k Hc|s w c cl g gr results outs Hr Hw Hc Hg Hlen Ho
    |s w c cl g gr Hr Hw Hc Hg|s w Hw|s w Hw|s c ws Hr Hp|s c r w l Hr|s c cl Hc Hdone]; simpl;
    try (exists []; rewrite app_nil_r; split; [done|]; left; intros m Hev; by apply not_elem_of_nil in Hev);
      try rewrite completed_log; (eexists; split; [reflexivity|]).
  - right. exists m. split; [done|]. intros c d cb ->. by destruct (Hm c d cb).
  - right. eexists. split; [done|]. intros c0 d0 cb0 [= <- <- <-]. split; [done|]. split; [done|].
    exists cl. rewrite lookup_insert. destruct (submit_submitted _ _ _ _ _ _ Hd Hs). done.
  - right. eexists. split; [done|]. done.
  - left. intros m Hev. apply elem_of_app in Hev as [Hev|Hev].
    + apply elem_of_cons in Hev as [?|Hev]; [done|]. by apply notify_done_ESend in Hev as (?&?&_&_&?).
    + destruct (any_internal results); [by apply not_elem_of_nil in Hev|]. by apply elem_of_list_singleton in Hev.
  - left. intros m Hev. by apply elem_of_list_singleton in Hev.
  - left. intros m Hev. apply elem_of_app in Hev as [Hev|Hev].
    + unfold farewell in Hev. destruct (s_clients s !! c) as [cl|] eqn:Ec; [destruct (is_done cl)|];
          try (by apply not_elem_of_nil in Hev). by apply elem_of_list_singleton in Hev.
    + unfold stops in Hev. apply elem_of_list_bind in Hev as ([w [[o g]|]]&Hev&_); simpl in Hev; [|by apply not_elem_of_nil in Hev].
      case_bool_decide; [|by apply not_elem_of_nil in Hev]. by apply elem_of_list_singleton in Hev.
  - left. intros m Hev. by apply elem_of_list_singleton in Hev.
  - left. intros m Hev. by apply elem_of_list_singleton in Hev.
Qed.
Lemma step_recv x x' : step x x' -> exists l, s_log (x_s x') = s_log (x_s x) ++ l /\
  ((forall m, ERecv m ∉ l) \/ exists m, l = [ERecv m] /\ forall c d cb, m = EvaluateDAG c d cb ->
     valid_dag d /\ (forall d' cb', ERecv (EvaluateDAG c d' cb') ∉ s_log (x_s x)) /\
     exists cl, s_clients (x_s x') !! c = Some cl /\ cl_dag cl = d /\ cl_cb cl = cb).
Proof.
  intros [H|H]; [|by apply xstep_recv]. destruct (istep_no_recv _ _ H) as (l&?&?). eauto.
Qed.
Lemma app_inv_head_log {A} (l l1 l2 : list A) : l ++ l1 = l ++ l2 -> l1 = l2.
Proof. apply app_inv_head. Qed.

Lemma subs_step x x' : base x -> subs x -> step x x' -> subs x'.
Proof.
  intros Hb [H1 H2 H3] Hst. destruct (step_recv _ _ Hst) as (l&Hl&Hr). destruct (step_events _ _ Hst) as (l'&Hl'&He).
  assert (l' = l) as -> by (eapply app_inv_head; by rewrite <- Hl, <- Hl').
  assert (Hold : forall c d cb, ERecv (EvaluateDAG c d cb) ∈ s_log (x_s x') ->
    ERecv (EvaluateDAG c d cb) ∈ s_log (x_s x) \/
    l = [ERecv (EvaluateDAG c d cb)] /\ valid_dag d /\ (forall d' cb', ERecv (EvaluateDAG c d' cb') ∉ s_log (x_s x))).
  { intros c d cb Hin. rewrite Hl in Hin. apply elem_of_app in Hin as [Hin|Hin]; [by left|right].
    destruct Hr as [Hr|(m&->&Hr)]; [by apply Hr in Hin|]. apply elem_of_list_singleton in Hin. injection Hin as <-.
    split; [done|]. destruct (Hr c d cb eq_refl) as (?&?&_). done. }
  constructor.
  - intros c d cb d' cb' Ha Hb'. apply Hold in Ha as [Ha|(Ha&_&Ha')]; apply Hold in Hb' as [Hb'|(Hb'&_&Hb'')]; [eauto| | |].
    + by apply Hb'' in Ha. + by apply Ha' in Hb'. + rewrite Ha in Hb'. by injection Hb' as <- <-.
  - intros c d cb Ha. apply Hold in Ha as [Ha|(Ha&?&Ha')]; eauto.
  - intros ev c Hev Hc. rewrite Hl in Hev. apply elem_of_app in Hev as [Hev|Hev].
    + destruct (H3 ev c Hev Hc) as (d&cb&?). exists d, cb. rewrite Hl, elem_of_app. by left.
    + destruct (He ev c Hev Hc) as [cl Hcl]. exists (cl_dag cl), (cl_cb cl). rewrite Hl, elem_of_app. left. by apply ba_client.
Qed.
Lemma subs_init : subs (Cfg [] [] init_state).
Proof. constructor; simpl; intros; exfalso; by eapply not_elem_of_nil. Qed.

(** ** External steps *)
Lemma wk_delete_other s s' w c g c0 g0 : s_workers s' = delete w (s_workers s) -> working s w c g ->
  (c0, g0) <> (c, g) -> wk_set s' c0 g0 = wk_set s c0 g0.
Proof.
  intros Hs Hw Hne. apply set_eq. intros w'. rewrite !elem_wk_set. unfold working in *. rewrite Hs, lookup_delete_Some.
  split; [naive_solver|]. intros H. split; [|done]. intros <-. rewrite Hw in H. injection H as -> ->. done.
Qed.
Lemma wk_delete_self s s' w c g : s_workers s' = delete w (s_workers s) -> wk_set s' c g = wk_set s c g ∖ {[w]}.
Proof.
  intros Hs. apply set_eq. intros w'. rewrite elem_of_difference, elem_of_singleton, !elem_wk_set. unfold working in *.
  rewrite Hs, lookup_delete_Some. naive_solver.
Qed.

Lemma xstep_view x x' : base x -> core x -> subs x -> xstep x x' -> forall c cl' g gr,
  s_clients (x_s x') !! c = Some cl' -> (g, gr) ∈ d_groups (cl_dag cl') ->
  (exists cl, s_clients (x_s x) !! c = Some cl /\ static cl = static cl' /\ vstep (view_of x c cl g) (view_of x' c cl' g)) \/
  (s_clients (x_s x) !! c = None /\ view_of x' c cl' g = vinit gr).
Proof.
  intros Hb Hcore Hsubs Hst c0 cl0' g0 gr0 Hcl0 Hgr0.
  destruct Hst as [s m Hm Hm2|s c d cb cl q Hd Hf Hs|s c cl f k Hc|s w c cl g gr results outs Hr Hw Hc Hg Hlen Ho
    |s w c cl g gr Hr Hw Hc Hg|s w Hw|s w Hw|s c ws Hr Hp|s c r w l Hr|s c cl Hc Hdone]; simpl in Hcl0.
  - left. keep_client cl0'. apply vstep_id. veq. apply lview_same. intros ev Hev.
    apply elem_of_list_singleton in Hev as ->. simpl; tauto.
  - destruct (submit_submitted _ _ _ _ _ _ Hd Hs) as [Hdd Hcb Hru Hha Hio Hre Hmi (new&Hq&Hen&Hcnt)].
    destruct (base_fresh _ c Hb Hf) as [Hnone Hnw]. simpl in Hnone, Hnw.
    assert (Hold0 : queue_count c g0 (s_queue s) = 0).
    { apply queue_count_0. intros en Hin [<- _]. destruct (co_queue _ Hcore en Hin) as [[? ?] _]. simpl in *. congruence. }
    destruct (decide (c0 = c)) as [->|Hne].
    + right. split; [done|]. rewrite lookup_insert in Hcl0. injection Hcl0 as <-. rewrite Hdd in Hgr0.
      unfold view_of, vinit. veq.
      * apply bd_iff. unfold waiting. split.
        -- intros [M HM]. apply Hmi in HM as (gr'&Hin&Hne&_).
           assert (gr' = gr0) as ->; [|done]. destruct Hd as [(_&Hnd&_) _]. by eapply groups_inj.
        -- intros Hne. exists (list_to_set (group_deps gr0)). apply Hmi. eauto.
      * rewrite Hq, queue_count_app, Hold0, Nat.add_0_r. by apply Hcnt.
      * apply set_eq. intros w. rewrite elem_wk_set. split; [|set_solver]. intros Hw. by apply Hnw in Hw.
      * apply bd_iff. rewrite Hre. split; [|eauto]. intros (gr'&Hin&He).
        assert (gr' = gr0) as ->; [|done]. destruct Hd as [(_&Hnd&_) _]. by eapply groups_inj.
      * rewrite Hru. by apply bool_decide_eq_false_2.
      * rewrite lview_same; [|intros ev Hev; apply elem_of_list_singleton in Hev as ->; simpl; tauto].
        assert (Hno : forall ev, ev ∈ s_log s -> ~ about c g0 ev).
        { intros ev Hev Ha. apply about_ev_client in Ha. destruct (sb_ev _ Hsubs ev c Hev Ha) as (d'&cb'&?). by eapply Hf. }
        change (s_log s) with ([] ++ s_log s). by rewrite lview_same.
    + left. rewrite lookup_insert_ne in Hcl0 by done. keep_client cl0'. apply vstep_id. veq.
      * rewrite Hq, queue_count_app. rewrite (proj2 (queue_count_0 c0 g0 new)); [done|].
        intros en Hin [Hx _]. destruct (Hen en Hin) as [? _]. congruence.
      * apply lview_same. intros ev Hev. apply elem_of_list_singleton in Hev as ->. simpl; tauto.
  - left. destruct (upd_cases _ _ _ _ _ _ Hc Hcl0) as [[-> ->]|[Hne Hcl0']].
    + keep_client cl. apply vstep_id. veq. apply lview_same. intros ev Hev. apply elem_of_list_singleton in Hev as ->. simpl; tauto.
    + keep_client cl0'. apply vstep_id. veq. apply lview_same. intros ev Hev. apply elem_of_list_singleton in Hev as ->. simpl; tauto.
  - left. rewrite completed_clients in Hcl0.
    assert (Hgu : g_uuid gr = g). { destruct (co_dag _ Hcore _ cl Hc) as [(_&_&Hk) _]. by apply Hk. }
    pose proof (completed_log w c cl g gr results outs s) as Hlog.
    assert (Hns : forall c0 g0 ev, ev ∈ notify_done c (cl_cb cl) (g_execs gr) results ++
      (if any_internal results then [] else [ECacheInsert c gr (outs ∪ cl_handles cl) results]) -> ~ about c0 g0 ev).
    { intros c1 g1 ev Hev. apply elem_of_app in Hev as [Hev|Hev]; [by apply send_not_about, (notify_done_is_send _ _ _ _ _ Hev)|].
      destruct (any_internal results); [by apply not_elem_of_nil in Hev|]. apply elem_of_list_singleton in Hev as ->. simpl; tauto. }
    assert (Hother : (c0, g0) <> (c, g) ->
      lview_of c0 g0 (s_log (completed_state w c cl g gr results outs s)) = lview_of c0 g0 (s_log s)).
    { intros Hne. rewrite Hlog. apply lview_same. intros ev Hev. simpl in Hev. apply elem_of_cons in Hev as [->|Hev]; [|by apply Hns].
      apply (about_head_other c g); [|done]. simpl. done. }
    destruct (upd_cases _ _ _ _ _ _ Hc Hcl0) as [[-> ->]|[Hne Hcl0']].
    + keep_client cl. destruct (decide (g0 = g)) as [->|Hneg].
      * eapply vstep_eq.
        -- apply (vs_done _ _ _ _ _ _ _ w). by apply elem_wk_set.
        -- veq.
           ++ by rewrite completed_queue.
           ++ symmetry. apply wk_delete_self. apply completed_workers.
           ++ symmetry. apply bool_decide_eq_false_2. set_solver.
           ++ symmetry. rewrite Hlog. simpl app at 1. by rewrite (lview_event c g); [|simpl; done|apply Hns].
      * apply vstep_id. veq.
        -- by rewrite completed_queue.
        -- eapply wk_delete_other; [apply completed_workers|done|congruence].
        -- apply bd_iff. by apply elem_diff_ne.
        -- apply Hother. congruence.
    + keep_client cl0'. apply vstep_id. veq.
      * by rewrite completed_queue.
      * eapply wk_delete_other; [apply completed_workers|done|congruence].
      * apply Hother. congruence.
  - left. assert (Hgu : g_uuid gr = g). { destruct (co_dag _ Hcore _ cl Hc) as [(_&_&Hk) _]. by apply Hk. }
    assert (Hother : (c0, g0) <> (c, g) ->
      lview_of c0 g0 (s_log (lost_state w c cl g gr s)) = lview_of c0 g0 (s_log s)).
    { intros Hne. apply lview_same. intros ev Hev. apply elem_of_list_singleton in Hev as ->.
      apply (about_head_other c g); [|done]. simpl. done. }
    destruct (upd_cases _ _ _ _ _ _ Hc Hcl0) as [[-> ->]|[Hne Hcl0']].
    + keep_client cl. destruct (decide (g0 = g)) as [->|Hneg].
      * eapply vstep_eq.
        -- apply (vs_lost _ _ _ _ _ _ _ w). by apply elem_wk_set.
        -- veq.
           ++ by rewrite queue_cons_eq.
           ++ symmetry. by apply wk_delete_self.
           ++ symmetry. apply bool_decide_eq_true_2. set_solver.
           ++ symmetry. apply bool_decide_eq_false_2. set_solver.
           ++ symmetry. rewrite (lview_event c g); [done|simpl; done|]. intros ev Hev. by apply not_elem_of_nil in Hev.
      * apply vstep_id. veq.
        -- apply queue_cons_ne. simpl. congruence.
        -- eapply wk_delete_other; [reflexivity|done|congruence].
        -- apply bd_iff. by apply elem_union_ne.
        -- apply bd_iff. by apply elem_diff_ne.
        -- apply Hother. congruence.
    + keep_client cl0'. apply vstep_id. veq.
      * apply queue_cons_ne. simpl. congruence.
      * eapply wk_delete_other; [reflexivity|done|congruence].
      * apply Hother. congruence.
  - left. keep_client cl0'. apply vstep_id. veq. apply set_eq. intros w'. rewrite !elem_wk_set. unfold working in *. simpl.
    rewrite lookup_delete_Some. split; [naive_solver|]. intros Hx. split; [|done]. intros <-. apply Hw in Hx. congruence.
  - left. keep_client cl0'. apply vstep_id. veq. apply set_eq. intros w'. rewrite !elem_wk_set. unfold working in *. simpl.
    destruct (decide (w = w')) as [<-|Hne]; [rewrite lookup_insert|by rewrite lookup_insert_ne].
    split; [done|]. intros Hx. by apply Hw in Hx.
  - left. apply lookup_delete_Some in Hcl0 as Hx. destruct Hx as [Hne Hx]. keep_client cl0'. apply vstep_id. veq.
    + clear - Hcl0. induction (s_queue s) as [|en q IH]; [done|]. rewrite filter_cons. destruct (decide _) as [Hd|Hd].
      * by rewrite !queue_count_cons, IH.
      * rewrite IH, queue_count_cons, decide_False; [done|]. intros [<- _]. apply Hd. by rewrite Hcl0.
    + apply lview_same. intros ev Hev. apply elem_of_app in Hev as [Hev|Hev].
      * unfold farewell in Hev. destruct (s_clients s !! c) as [cl|] eqn:Ec; [destruct (is_done cl)|];
          try (by apply not_elem_of_nil in Hev). apply elem_of_list_singleton in Hev as ->. simpl; tauto.
      * unfold stops in Hev. apply elem_of_list_bind in Hev as ([w [[o g]|]]&Hev&_); simpl in Hev; [|by apply not_elem_of_nil in Hev].
        case_bool_decide; [|by apply not_elem_of_nil in Hev]. apply elem_of_list_singleton in Hev as ->. simpl; tauto.
  - left. keep_client cl0'. apply vstep_id. veq. apply lview_same. intros ev Hev.
    apply elem_of_list_singleton in Hev as ->. simpl; tauto.
  - left. keep_client cl0'. apply vstep_id. veq. apply lview_same. intros ev Hev.
    apply elem_of_list_singleton in Hev as ->. simpl; tauto.
Qed.

(** ** Every group of every submitted DAG follows the automaton *)
Record views (x : cfg) : Prop := {
  vw_live : forall c cl g gr, s_clients (x_s x) !! c = Some cl -> (g, gr) ∈ d_groups (cl_dag cl) -> vreach gr (view_of x c cl g);
  vw_log : forall c d cb g gr, ERecv (EvaluateDAG c d cb) ∈ s_log (x_s x) -> (g, gr) ∈ d_groups d ->
    exists v, vreach gr v /\ lv v = lview_of c g (s_log (x_s x))
}.
Lemma views_step x x' : base x -> core x -> subs x -> views x -> step x x' -> views x'.
Proof.
  intros Hb Hcore Hsubs [Hlive Hlog] Hst.
  assert (Hlive' : forall c cl g gr, s_clients (x_s x') !! c = Some cl -> (g, gr) ∈ d_groups (cl_dag cl) -> vreach gr (view_of x' c cl g)).
  { intros c cl g gr Hcl Hgr. assert (Hv : (exists cl0, s_clients (x_s x) !! c = Some cl0 /\ static cl0 = static cl /\ vstep (view_of x c cl0 g) (view_of x' c cl g)) \/
      (s_clients (x_s x) !! c = None /\ view_of x' c cl g = vinit gr)).
    { destruct Hst as [Hst|Hst]; [left; by eapply istep_view|by eapply xstep_view]. }
    destruct Hv as [(cl0&Hcl0&Hs&Hv)|[_ ->]]; [|constructor].
    apply static_dag in Hs. eapply vr_step; [|exact Hv]. apply Hlive; [done|by rewrite Hs]. }
  constructor; [done|]. intros c d cb g gr Hsub Hgr.
  destruct (s_clients (x_s x') !! c) as [cl|] eqn:Ec.
  - assert (Hb' : base x') by (by eapply step_base). assert (Hs' : subs x') by (exact (subs_step _ _ Hb Hsubs Hst)).
    assert (Hd : cl_dag cl = d). { eapply (sb_uniq _ Hs'); [exact Hsub|]. by apply ba_client. }
    exists (view_of x' c cl g). split; [|done]. apply Hlive'; [done|by rewrite Hd].
  - destruct (step_recv _ _ Hst) as (l&Hl&Hr).
    assert (Hsub0 : ERecv (EvaluateDAG c d cb) ∈ s_log (x_s x)).
    { rewrite Hl in Hsub. apply elem_of_app in Hsub as [?|Hin]; [done|]. destruct Hr as [Hr|(m&->&Hr)]; [by apply Hr in Hin|].
      apply elem_of_list_singleton in Hin. injection Hin as <-. destruct (Hr c d cb eq_refl) as (_&_&cl&?&_). congruence. }
    destruct (step_events _ _ Hst) as (l'&Hl'&He).
    assert (l' = l) as -> by (eapply app_inv_head; by rewrite <- Hl, <- Hl').
    assert (Hsame : lview_of c g (s_log (x_s x')) = lview_of c g (s_log (x_s x))).
    { rewrite Hl. apply lview_same. intros ev Hev Ha. apply about_ev_client in Ha as Hec.
      destruct (He ev c Hev Hec) as [cl Hcl].
      destruct Hst as [Hst|Hst].
      - apply istep_grows in Hst. destruct (grows_fwd _ _ _ _ Hst Hcl) as (?&?&_). congruence.
      - destruct Hst as [s m Hm Hm2|s c1 d1 cb1 cl1 q Hd Hf Hs|s c1 cl1 f k Hc|s w c1 cl1 g1 gr1 results outs Hrr Hw Hc Hg Hlen Ho
          |s w c1 cl1 g1 gr1 Hrr Hw Hc Hg|s w Hw|s w Hw|s c1 ws Hrr Hp|s c1 r w l1 Hrr|s c1 cl1 Hc Hdone]; simpl in *; try congruence.
        all: try (destruct (decide (c = c1)) as [->|Hne]; [by rewrite lookup_insert in Ec|by rewrite lookup_insert_ne, Hcl in Ec]).
        + rewrite completed_clients in Ec.
          destruct (decide (c = c1)) as [->|Hne]; [by rewrite lookup_insert in Ec|by rewrite lookup_insert_ne, Hcl in Ec].
        + apply app_inv_head in Hl. subst l. apply elem_of_app in Hev as [Hev|Hev].
          * unfold farewell in Hev. destruct (s_clients s !! c1) as [cl1|] eqn:Ec1; [destruct (is_done cl1)|];
              try (by apply not_elem_of_nil in Hev). apply elem_of_list_singleton in Hev as ->. done.
          * unfold stops in Hev. apply elem_of_list_bind in Hev as ([w [[o g1]|]]&Hev&_); simpl in Hev; [|by apply not_elem_of_nil in Hev].
            case_bool_decide; [|by apply not_elem_of_nil in Hev]. apply elem_of_list_singleton in Hev as ->. done. }
    destruct (Hlog c d cb g gr Hsub0 Hgr) as (v&Hv&Hlv). exists v. by rewrite Hsame.
Qed.
Lemma views_init : views (Cfg [] [] init_state).
Proof. constructor; simpl; [intros c cl g gr; by rewrite lookup_empty|]. intros; exfalso; by eapply not_elem_of_nil. Qed.

(** ** Invariants of the automaton *)
Definition vinv (gr : group) (v : view) : Prop :=
  (rd v = true -> 0 < qn v) /\ (rn v = true -> wk v <> ∅) /\
  (wt v = true \/ rd v = true \/ rn v = true \/ 0 < ln v \/ 0 < lv_cp (lv v) + lv_sk (lv v)) /\
  (single gr ->
     lv_ph (lv v) <> Bad /\
     ((if wt v then 1 else 0) + qn v + ln v = match lv_ph (lv v) with Fresh | Back => 1 | _ => 0 end) /\
     (wt v = true -> lv_ph (lv v) = Fresh) /\
     (wk v = match lv_ph (lv v) with Run w => {[w]} | _ => ∅ end) /\
     (rd v = true <-> 0 < qn v) /\ (rn v = true <-> wk v <> ∅) /\
     (lv_cp (lv v) = match lv_ph (lv v) with Completed => 1 | _ => 0 end) /\
     (lv_sk (lv v) = match lv_ph (lv v) with Skipped => 1 | _ => 0 end) /\
     (lv_ph (lv v) = Fresh \/ lv_ph (lv v) = Skipped -> lv_jb (lv v) = 0)
  ).
Lemma vinv_init gr : g_execs gr <> [] -> vinv gr (vinit gr).
Proof.
  intros Hne. assert (Hle : 0 < length (g_execs gr)) by (destruct (g_execs gr); simpl; [done|lia]).
  unfold vinv, vinit; simpl. unfold single.
  destruct (decide (group_deps gr = [])) as [E|E].
  - rewrite (bool_decide_eq_false_2 (group_deps gr <> [])) by tauto. rewrite (bool_decide_eq_true_2 (group_deps gr = [])) by done.
    split; [done|]. split; [done|]. split; [auto|]. intros [?|Hs]; [done|]. rewrite Hs. repeat split; try done; try lia.
  - rewrite (bool_decide_eq_true_2 (group_deps gr <> [])) by done. rewrite (bool_decide_eq_false_2 (group_deps gr = [])) by tauto.
    split; [done|]. split; [done|]. split; [auto|]. intros _. repeat split; try done; try lia.
Qed.
Ltac vfin := split_and!; first [done | lia | tauto | congruence
  | (split; [intros; first [lia|set_solver|congruence]|intros; first [done|lia|congruence]])
  | (intros [?|?]; congruence) | (intros; congruence) | (intros; tauto) | set_solver | idtac].
Lemma vinv_step gr v v' : vinv gr v -> vstep v v' -> vinv gr v'.
Proof.
  intros (H1&H2&H3&H4) Hst. destruct Hst as [v|q l k r n v|q l k r n v|t q l k r n v w Hw|t q l k r n v|t q l k r n v|t q l k r n v w Hw|t q l k r n v w Hw];
    unfold vinv in *; simpl in *; [done|..]; (split; [|split; [|split]]).
  all: try (intros Hs; specialize (H4 Hs); destruct H4 as (Hb&Hn&Hwt&Hk&Hr&Hrn&Hcp&Hsk&Hjs)).
  - done.
  - done.
  - right; right; right; right; lia.
  - rewrite (Hwt eq_refl) in *. simpl in *. vfin.
  - lia.
  - done.
  - auto.
  - rewrite (Hwt eq_refl) in *. simpl in *. vfin.
  - done.
  - set_solver.
  - auto.
  - destruct (lv_ph v) eqn:Ep; simpl in *; try (destruct t; simpl in *; lia); (destruct t; [simpl in *; lia|]); simpl in *;
      subst k; vfin.
  - done.
  - done.
  - destruct H3 as [?|[?|[?|[?|?]]]]; auto; right; right; right; left; lia.
  - destruct (lv_ph v) eqn:Ep; simpl in *; try (destruct t; simpl in *; lia); (destruct t; [simpl in *; lia|]); simpl in *;
      subst k; vfin.
  - done.
  - done.
  - right; right; right; right; lia.
  - destruct (lv_ph v) eqn:Ep; simpl in *; try (destruct t; simpl in *; lia); (destruct t; [simpl in *; lia|]); simpl in *;
      subst k; vfin.
  - done.
  - done.
  - right; right; right; right; lia.
  - destruct (lv_ph v) as [|w'| | | |] eqn:Ep; simpl in *; subst k; try (by apply not_elem_of_empty in Hw).
    apply elem_of_singleton in Hw as ->.
    destruct t; [by specialize (Hwt eq_refl)|]. replace ({[w']} ∖ {[w']} : gset worker_uuid) with (∅ : gset worker_uuid) by set_solver.
    vfin.
  - lia.
  - done.
  - auto.
  - destruct (lv_ph v) as [|w'| | | |] eqn:Ep; simpl in *; subst k; try (by apply not_elem_of_empty in Hw).
    apply elem_of_singleton in Hw as ->. rewrite decide_True by done.
    destruct t; [by specialize (Hwt eq_refl)|]. replace ({[w']} ∖ {[w']} : gset worker_uuid) with (∅ : gset worker_uuid) by set_solver.
    vfin.
Qed.
Lemma vreach_inv gr v : g_execs gr <> [] -> vreach gr v -> vinv gr v.
Proof. intros Hne. induction 1; [by apply vinv_init|by eapply vinv_step]. Qed.

(** All the invariants so far, for reachable states. *)
Record inv1 (x : cfg) : Prop := { i1_subs : subs x; i1_views : views x }.
Lemma reachable_inv1 env s : env_ok env -> reachable env s ->
  base (Cfg [] [] s) /\ core (Cfg [] [] s) /\ subs (Cfg [] [] s) /\ views (Cfg [] [] s).
Proof.
  intros Henv Hr. destruct (reachable_steps env s Henv Hr) as (_&Hb&Hc). split; [done|]. split; [done|].
  assert (Hi : inv1 (Cfg [] [] s)); [|by destruct Hi].
  eapply (reachable_inv env); [done|done| | |].
  - constructor; [apply subs_init|apply views_init].
  - intros x x' Hb' Hc' [? ?] Hst. constructor; [eapply subs_step; eauto; by left|eapply views_step; eauto; by left].
  - intros x x' Hb' Hc' [? ?] Hst. constructor; [eapply subs_step; eauto; by right|eapply views_step; eauto; by right].
Qed.
