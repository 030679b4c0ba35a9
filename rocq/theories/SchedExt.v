(** External steps: what a handler does before and after the internal steps of SchedSteps.v; every handler
    is total under [core] and is a sequence of steps. *)
From Verif Require Import SchedSpec SchedSteps SchedWalk CheckDagProofs CheckDagProofs2.
Local Arguments mu : simpl never.

Definition completed_state w c cl g gr results outs s : state :=
  let cl' := set_running (cl_running cl ∖ {[g]}) cl in
  let s' := complete c cl' gr results outs false (upd_client c cl' (set_workers (delete w (s_workers s)) s)) in
  if any_internal results then s' else emit [ECacheInsert c gr (outs ∪ cl_handles cl) results] s'.
Definition lost_state w c cl g gr s : state :=
  emit [ELost c g w]
    (set_queue (Entry HIGH_PRIORITY (group_priority gr) g c :: s_queue s)
      (upd_client c (set_running (cl_running cl ∖ {[g]}) (set_ready ({[g]} ∪ cl_ready cl) cl))
        (set_workers (delete w (s_workers s)) s))).
Definition stops (c : client_uuid) (ws : list (worker_uuid * option (client_uuid * group_uuid))) : list event :=
  ws ≫= fun wj => match wj.2 with
                   | Some (owner, g) => if bool_decide (owner = c) then [EStop wj.1 g] else []
                   | None => []
                   end.
Definition farewell (c : client_uuid) (s : state) : list event :=
  match s_clients s !! c with
  | Some cl => if is_done cl then [] else [ESend c MEvaluationDone]
  | None => []
  end.
Definition gone_state c ws s : state :=
  State (filter (fun en => is_Some (delete c (s_clients s) !! en_client en)) (s_queue s))
    (delete c (s_clients s)) (s_workers s) (S (s_tick s)) (s_log s ++ farewell c s ++ stops c ws).

Inductive xstep : cfg -> cfg -> Prop :=
  | xs_recv s m : (forall c d cb, m <> EvaluateDAG c d cb) -> (forall c f k, m = FileReady c f k -> s_clients s !! c = None) ->
      xstep (Cfg [] [] s) (Cfg [] [] (emit [ERecv m] s))
  | xs_submit s c d cb cl q : valid_dag d -> (forall d' cb', ERecv (EvaluateDAG c d' cb') ∉ s_log s) ->
      fold_left (submit_one c (cfg_priority (d_config d))) (d_groups d) (new_client d cb, s_queue s) = (cl, q) ->
      xstep (Cfg [] [] s) (Cfg [] [] (upd_client c cl (set_queue q (emit [ERecv (EvaluateDAG c d cb)] s))))
  | xs_ready s c cl f k : s_clients s !! c = Some cl ->
      xstep (Cfg [] [] s) (Cfg [] [(c, f)] (upd_client c (set_handles (<[f := k]> (cl_handles cl)) cl) (emit [ERecv (FileReady c f k)] s)))
  | xs_complete s w c cl g gr results outs : last_recv (s_log s) = Some (WorkerResult w results outs) ->
      working s w c g -> s_clients s !! c = Some cl -> (g, gr) ∈ d_groups (cl_dag cl) ->
      length results = length (g_execs gr) ->
      (forall f, f ∈ group_outputs gr -> is_Some (outs !! f)) ->
      xstep (Cfg [] [] s) (Cfg [] (map (pair c) (group_outputs gr)) (completed_state w c cl g gr results outs s))
  | xs_lost s w c cl g gr : last_recv (s_log s) = Some (WorkerDisconnected w) ->
      working s w c g -> s_clients s !! c = Some cl -> (g, gr) ∈ d_groups (cl_dag cl) ->
      xstep (Cfg [] [] s) (Cfg [] [] (lost_state w c cl g gr s))
  | xs_wdel s w : (forall c g, working s w c g -> s_clients s !! c = None) ->
      xstep (Cfg [] [] s) (Cfg [] [] (set_workers (delete w (s_workers s)) s))
  | xs_wadd s w : (forall c g, ~ working s w c g) ->
      xstep (Cfg [] [] s) (Cfg [] [] (set_workers (<[w := None]> (s_workers s)) s))
  | xs_gone s c ws : last_recv (s_log s) = Some (ClientDisconnected c) ->
      ws ≡ₚ map_to_list (s_workers s) ->
      xstep (Cfg [] [] s) (Cfg [] [] (gone_state c ws s))
  | xs_status s c r w l : last_recv (s_log s) = Some (StatusRequest c) ->
      xstep (Cfg [] [] s) (Cfg [] [] (emit [ESend c (MStatus r w l)] (tick s)))
  | xs_evaldone s c cl : s_clients s !! c = Some cl -> is_done cl = true ->
      xstep (Cfg [] [] s) (Cfg [] [] (emit [ESend c MEvaluationDone] s)).

Definition step (x x' : cfg) : Prop := istep x x' \/ xstep x x'.
Lemma isteps_steps x x' : rtc istep x x' -> rtc step x x'.
Proof. apply rtc_subrel. by left. Qed.

(** ** The submission of a DAG *)
Definition io_of (gs : list (group_uuid * group)) (cl : client) : Prop := forall f g,
  (exists gg, cl_input_of cl !! f = Some gg /\ g ∈ gg) <-> exists gr, (g, gr) ∈ gs /\ f ∈ group_deps gr.
Record submitted (c : client_uuid) (d : dag) (cb : watch_set) (gs : list (group_uuid * group)) (q0 : list entry)
    (cl : client) (q : list entry) : Prop := {
  su_dag : cl_dag cl = d;
  su_cb : cl_cb cl = cb;
  su_running : cl_running cl = ∅;
  su_handles : cl_handles cl = ∅;
  su_io : io_of gs cl;
  su_ready : forall g, g ∈ cl_ready cl <-> exists gr, (g, gr) ∈ gs /\ group_deps gr = [];
  su_missing : forall g M, cl_missing cl !! g = Some M <->
    exists gr, (g, gr) ∈ gs /\ group_deps gr <> [] /\ M = list_to_set (group_deps gr);
  su_queue : exists new, q = new ++ q0 /\
    (forall en, en ∈ new -> en_client en = c /\ exists gr, (en_group en, gr) ∈ gs /\ group_deps gr = []) /\
    (forall g gr, (g, gr) ∈ gs -> queue_count c g new = if bool_decide (group_deps gr = []) then length (g_execs gr) else 0)
}.

Lemma io_fold g deps : forall (m : gmap file_uuid (gset group_uuid)) f g',
  (exists gg, fold_left (fun m f => <[f := {[g]} ∪ default ∅ (m !! f)]> m) deps m !! f = Some gg /\ g' ∈ gg) <->
  (exists gg, m !! f = Some gg /\ g' ∈ gg) \/ (g' = g /\ f ∈ deps).
Proof.
  induction deps as [|x deps IH]; intros m f g'; simpl.
  - rewrite elem_of_nil. naive_solver.
  - rewrite IH, elem_of_cons. destruct (decide (x = f)) as [<-|Hne].
    + split.
      * intros [(gg&Hgg&Hin)|[-> ?]]; [|auto]. rewrite lookup_insert in Hgg. injection Hgg as <-.
        apply elem_of_union in Hin as [Hin|Hin]; [right; split; [set_solver|auto]|].
        left. destruct (m !! x) as [gg|]; simpl in Hin; [eauto|set_solver].
      * intros [(gg&Hgg&Hin)|[-> [_|?]]]; [| |auto].
        -- left. rewrite lookup_insert. eexists. split; [done|]. rewrite Hgg. simpl. set_solver.
        -- left. rewrite lookup_insert. eexists. split; [done|]. set_solver.
    + rewrite lookup_insert_ne by done. naive_solver.
Qed.

Lemma queue_count_app c g q1 q2 : queue_count c g (q1 ++ q2) = queue_count c g q1 + queue_count c g q2.
Proof. unfold queue_count. by rewrite filter_app, app_length. Qed.
Lemma queue_count_cons c g en q : queue_count c g (en :: q) =
  (if decide (en_client en = c /\ en_group en = g) then 1 else 0) + queue_count c g q.
Proof. unfold queue_count. rewrite filter_cons. by destruct (decide _). Qed.
Lemma queue_count_0 c g q : queue_count c g q = 0 <-> forall en, en ∈ q -> ~ (en_client en = c /\ en_group en = g).
Proof.
  unfold queue_count. rewrite length_zero_iff_nil. split.
  - intros H en Hen Hx. apply (not_elem_of_nil en). rewrite <- H. by apply elem_of_list_filter.
  - intros H. destruct (filter _ q) as [|en l] eqn:E; [done|]. exfalso.
    assert (Hin : en ∈ filter (λ en : entry, en_client en = c ∧ en_group en = g) q) by (rewrite E; left).
    apply elem_of_list_filter in Hin as [? ?]. by eapply H.
Qed.
Lemma queue_count_pos c g q : 0 < queue_count c g q <-> exists en, en ∈ q /\ en_client en = c /\ en_group en = g.
Proof.
  split.
  - intros H. destruct (filter (λ en : entry, en_client en = c ∧ en_group en = g) q) as [|en l] eqn:E.
    + unfold queue_count in H. rewrite E in H. simpl in H. lia.
    + exists en. assert (Hin : en ∈ filter (λ en : entry, en_client en = c ∧ en_group en = g) q) by (rewrite E; left).
      apply elem_of_list_filter in Hin as [[? ?] ?]. done.
  - intros (en&Hin&?&?). destruct (decide (queue_count c g q = 0)) as [Hz|]; [|lia].
    exfalso. rewrite queue_count_0 in Hz. by eapply Hz.
Qed.
Lemma queue_count_perm c g q q' : q ≡ₚ q' -> queue_count c g q = queue_count c g q'.
Proof. intros H. unfold queue_count. by rewrite H. Qed.

Lemma submit_fold c d cb prio q0 gs : NoDup gs.*1 -> (forall k g, (k, g) ∈ gs -> g_uuid g = k) ->
  forall cl q, fold_left (submit_one c prio) gs (new_client d cb, q0) = (cl, q) -> submitted c d cb gs q0 cl q.
Proof.
  induction gs as [|[k gr] gs IH] using rev_ind; intros Hnd Hk cl q.
  - simpl. intros [= <- <-]. constructor; simpl; try done.
    + intros f g. simpl. rewrite lookup_empty. split; [by intros (?&?&?)|]. intros (gr&Hx&_). by apply not_elem_of_nil in Hx.
    + intros g. split; [set_solver|]. intros (gr&Hx&_). by apply not_elem_of_nil in Hx.
    + intros g M. rewrite lookup_empty. split; [done|]. intros (gr&Hx&_). by apply not_elem_of_nil in Hx.
    + exists []. split; [done|]. split; [intros en Hx|intros g gr Hx]; by apply not_elem_of_nil in Hx.
  - rewrite fmap_app in Hnd. apply NoDup_app in Hnd as (Hnd&Hdis&_).
    assert (Hfresh : forall gr', (k, gr') ∉ gs).
    { intros gr' Hin. apply (Hdis k); [|left]. apply elem_of_list_fmap. by exists (k, gr'). }
    assert (Hgk : g_uuid gr = k) by (apply Hk, elem_of_app; right; left).
    rewrite fold_left_app. destruct (fold_left (submit_one c prio) gs (new_client d cb, q0)) as [cl0 q1] eqn:E0.
    destruct (IH Hnd (fun k' g' Hin => Hk k' g' (proj2 (elem_of_app _ _ _) (or_introl Hin))) cl0 q1 eq_refl)
      as [H1 H2 H3 H4 H5 H6 H7 (new&Hq&Hen&Hcnt)].
    simpl. rewrite Hgk.
    assert (Hm0 : cl_missing cl0 !! k = None).
    { destruct (cl_missing cl0 !! k) as [M|] eqn:EM; [|done]. apply H7 in EM as (gr'&Hin&_). by apply Hfresh in Hin. }
    rewrite Hm0. simpl. rewrite (right_id_L ∅ (∪)).
    assert (Hio : forall f g,
      (exists gg, fold_left (fun m f => <[f := {[k]} ∪ default ∅ (m !! f)]> m) (group_deps gr) (cl_input_of cl0) !! f = Some gg /\ g ∈ gg) <->
      exists gr', (g, gr') ∈ gs ++ [(k, gr)] /\ f ∈ group_deps gr').
    { intros f g. rewrite io_fold, (H5 f g). split.
      - intros [(gr'&?&?)|[-> ?]]; [exists gr'; rewrite elem_of_app; auto|].
        exists gr. split; [|done]. apply elem_of_app. right. left.
      - intros (gr'&Hin&?). apply elem_of_app in Hin as [Hin|Hin]; [eauto|].
        apply elem_of_list_singleton in Hin. injection Hin as -> ->. auto. }
    assert (Hemp : list_to_set (group_deps gr) = (∅ : gset file_uuid) <-> group_deps gr = []).
    { split; [|by intros ->]. destruct (group_deps gr) as [|f l]; [done|]. intros H. exfalso.
      apply (not_elem_of_empty (C:=gset file_uuid) f). rewrite <- H. simpl. set_solver. }
    assert (Hq0 : queue_count c k new = 0).
    { apply queue_count_0. intros en Hin [_ <-]. destruct (Hen en Hin) as (_&gr'&Hin'&_). by apply Hfresh in Hin'. }
    case_bool_decide as He; intros [= <- <-].
    + apply Hemp in He. constructor; simpl; try done.
      * intros g. rewrite elem_of_union, elem_of_singleton, H6. split.
        -- intros [->|(gr'&?&?)]; [exists gr; split; [apply elem_of_app; right; left|done]|].
           exists gr'. rewrite elem_of_app. auto.
        -- intros (gr'&Hin&?). apply elem_of_app in Hin as [Hin|Hin]; [eauto|].
           apply elem_of_list_singleton in Hin. injection Hin as -> ->. auto.
      * intros g M. destruct (decide (g = k)) as [->|Hne].
        -- rewrite lookup_delete. split; [done|]. intros (gr'&Hin&Hne&_). apply elem_of_app in Hin as [Hin|Hin].
           ++ by apply Hfresh in Hin.
           ++ apply elem_of_list_singleton in Hin. injection Hin as ->. done.
        -- rewrite lookup_delete_ne by done. rewrite H7. split.
           ++ intros (gr'&?&?&?). exists gr'. rewrite elem_of_app. auto.
           ++ intros (gr'&Hin&?&?). apply elem_of_app in Hin as [Hin|Hin]; [eauto|].
              apply elem_of_list_singleton in Hin. injection Hin as -> ->. done.
      * exists (map (fun e => Entry prio (e_priority e) k c) (g_execs gr) ++ new).
        split; [by rewrite Hq, app_assoc|]. split.
        -- intros en Hin. apply elem_of_app in Hin as [Hin|Hin].
           ++ apply elem_of_list_fmap in Hin as (e9&->&_). simpl. split; [done|]. exists gr.
              split; [apply elem_of_app; right; left|done].
           ++ destruct (Hen en Hin) as (?&gr'&?&?). split; [done|]. exists gr'. rewrite elem_of_app. auto.
        -- intros g gr' Hin. rewrite queue_count_app. apply elem_of_app in Hin as [Hin|Hin].
           ++ rewrite (proj2 (queue_count_0 c g (map _ _))); [by apply Hcnt|].
              intros en Hin' [_ <-]. apply elem_of_list_fmap in Hin' as (e9&->&_). simpl in Hin. by apply Hfresh in Hin.
           ++ apply elem_of_list_singleton in Hin. injection Hin as -> ->. rewrite Hq0.
              rewrite bool_decide_eq_true_2 by done. rewrite Nat.add_0_r. clear.
              induction (g_execs gr) as [|e9 l IH]; [done|]. simpl map. rewrite queue_count_cons, IH. simpl.
              rewrite decide_True by done. done.
    + rewrite Hemp in He. constructor; simpl; try done.
      * intros g. rewrite H6. split.
        -- intros (gr'&?&?). exists gr'. rewrite elem_of_app. auto.
        -- intros (gr'&Hin&?). apply elem_of_app in Hin as [Hin|Hin]; [eauto|].
           apply elem_of_list_singleton in Hin. injection Hin as -> ->. done.
      * intros g M. destruct (decide (g = k)) as [->|Hne].
        -- rewrite lookup_insert. split.
           ++ intros [= <-]. exists gr. split; [apply elem_of_app; right; left|done].
           ++ intros (gr'&Hin&Hne&->). apply elem_of_app in Hin as [Hin|Hin].
              ** by apply Hfresh in Hin.
              ** apply elem_of_list_singleton in Hin. injection Hin as ->. done.
        -- rewrite lookup_insert_ne by done. rewrite H7. split.
           ++ intros (gr'&?&?&?). exists gr'. rewrite elem_of_app. auto.
           ++ intros (gr'&Hin&?&?). apply elem_of_app in Hin as [Hin|Hin]; [eauto|].
              apply elem_of_list_singleton in Hin. injection Hin as -> ->. done.
      * exists new. split; [done|]. split.
        -- intros en Hin. destruct (Hen en Hin) as (?&gr'&?&?). split; [done|]. exists gr'. rewrite elem_of_app. auto.
        -- intros g gr' Hin. apply elem_of_app in Hin as [Hin|Hin]; [by apply Hcnt|].
           apply elem_of_list_singleton in Hin. injection Hin as -> ->. by rewrite bool_decide_eq_false_2.
Qed.
Lemma submit_submitted c d cb q0 cl q : valid_dag d ->
  fold_left (submit_one c (cfg_priority (d_config d))) (d_groups d) (new_client d cb, q0) = (cl, q) ->
  submitted c d cb (d_groups d) q0 cl q.
Proof. intros [(_&Hnd&Hk) _]. by apply submit_fold. Qed.

(** ** Clients and jobs come from submissions *)
Record base (x : cfg) : Prop := {
  ba_client : forall c cl, s_clients (x_s x) !! c = Some cl -> ERecv (EvaluateDAG c (cl_dag cl) (cl_cb cl)) ∈ s_log (x_s x);
  ba_job : forall w c g, working (x_s x) w c g -> exists d cb, ERecv (EvaluateDAG c d cb) ∈ s_log (x_s x)
}.
Lemma base_grow x x' : base x -> grows (x_s x) (x_s x') -> (exists l, s_log (x_s x') = s_log (x_s x) ++ l) ->
  (forall w c g, working (x_s x') w c g -> working (x_s x) w c g \/ is_Some (s_clients (x_s x') !! c)) -> base x'.
Proof.
  intros [H1 H2] Hg [l Hl] Hw.
  assert (Hc : forall c cl, s_clients (x_s x') !! c = Some cl -> ERecv (EvaluateDAG c (cl_dag cl) (cl_cb cl)) ∈ s_log (x_s x')).
  { intros c cl Hcl. destruct (grows_bwd _ _ _ _ Hg Hcl) as (cl0&Hcl0&Hst&_). unfold static in Hst.
    injection Hst as -> -> _. rewrite Hl, elem_of_app. left. by apply H1. }
  constructor; [done|]. intros w c g Hwk. destruct (Hw w c g Hwk) as [Hwk'|[cl Hcl]].
  - destruct (H2 _ _ _ Hwk') as (d&cb&?). exists d, cb. rewrite Hl, elem_of_app. by left.
  - eauto.
Qed.
Lemma istep_base x x' : base x -> istep x x' -> base x'.
Proof.
  intros Hb Hst. apply (base_grow x); [done|by apply istep_grows|by apply istep_log|].
  destruct Hst; simpl; try (intros; by left).
  intros w' c0 g0 Hwk. unfold working in Hwk |- *. simpl in Hwk. destruct (decide (w = w')) as [<-|Hne].
  - rewrite lookup_insert in Hwk. injection Hwk as <- <-. right. rewrite lookup_insert. eauto.
  - rewrite lookup_insert_ne in Hwk by done. by left.
Qed.

(** How the external steps change the clients, the workers and the queue. *)
Lemma completed_clients w c cl g gr results outs s :
  s_clients (completed_state w c cl g gr results outs s) =
  <[c := set_handles (outs ∪ cl_handles cl) (set_running (cl_running cl ∖ {[g]}) cl)]> (s_clients s).
Proof. unfold completed_state. destruct (any_internal results); simpl; by rewrite insert_insert. Qed.
Lemma completed_workers w c cl g gr results outs s :
  s_workers (completed_state w c cl g gr results outs s) = delete w (s_workers s).
Proof. unfold completed_state. by destruct (any_internal results). Qed.
Lemma completed_queue w c cl g gr results outs s :
  s_queue (completed_state w c cl g gr results outs s) = s_queue s.
Proof. unfold completed_state. by destruct (any_internal results). Qed.
Lemma completed_log w c cl g gr results outs s :
  s_log (completed_state w c cl g gr results outs s) = s_log s ++
    (ECompleted c (g_uuid gr) false results outs :: notify_done c (cl_cb cl) (g_execs gr) results) ++
    (if any_internal results then [] else [ECacheInsert c gr (outs ∪ cl_handles cl) results]).
Proof. unfold completed_state. destruct (any_internal results); simpl; [by rewrite app_nil_r|by rewrite <- app_assoc]. Qed.

Lemma working_delete s w w' c g : working (set_workers (delete w (s_workers s)) s) w' c g -> working s w' c g /\ w' <> w.
Proof. unfold working. simpl. rewrite lookup_delete_Some. naive_solver. Qed.

Lemma xstep_log x x' : xstep x x' -> exists l, s_log (x_s x') = s_log (x_s x) ++ l.
Proof.
  intros Hx. destruct Hx; simpl; try rewrite completed_log; eauto; exists []; by rewrite app_nil_r.
Qed.

Lemma xstep_base x x' : base x -> xstep x x' -> base x'.
Proof.
  intros Hb Hst. pose proof (xstep_log _ _ Hst) as Hl.
  destruct Hst as [s m Hm Hm2|s c d cb cl q Hd Hf Hs|s c cl f k Hc|s w c cl g gr results outs Hr Hw Hc Hg Hlen Ho
    |s w c cl g gr Hr Hw Hc Hg|s w Hw|s w Hw|s c ws Hr Hp|s c r w l Hr|s c cl Hc Hdone]; simpl in Hl.
  - by apply (base_grow _ _ Hb); [by apply grows_refl_clients| |auto].
  - destruct (submit_submitted _ _ _ _ _ _ Hd Hs) as [Hdd Hcb _ _ _ _ _ _]. destruct Hb as [H1 H2]. constructor; simpl.
    + intros c0 cl0. rewrite elem_of_app. destruct (decide (c = c0)) as [<-|Hne].
      * rewrite lookup_insert. intros [= <-]. right. rewrite Hdd, Hcb. left.
      * rewrite lookup_insert_ne by done. intros Hc0. left. by apply H1.
    + intros w c0 g Hwk. destruct (H2 w c0 g Hwk) as (d'&cb'&?). exists d', cb'. rewrite elem_of_app. by left.
  - apply (base_grow _ _ Hb); simpl; [|done|auto]. eapply grows_upd; [done|reflexivity|reflexivity|].
    simpl. intros f' Hf'. destruct (decide (f = f')) as [<-|]; [rewrite lookup_insert; eauto|by rewrite lookup_insert_ne].
  - apply (base_grow _ _ Hb); simpl; [|done|].
    + eapply grows_upd; [done|apply completed_clients|reflexivity|]. simpl. intros f. apply outs_union_handles.
    + intros w' c' g'. unfold working. rewrite completed_workers. intros Hx. left.
      by apply lookup_delete_Some in Hx as [_ ?].
  - apply (base_grow _ _ Hb); simpl; [|done|].
    + eapply grows_upd; [done|reflexivity|reflexivity|done].
    + intros w' c' g' Hx. left. unfold working in Hx. simpl in Hx. by apply lookup_delete_Some in Hx as [_ ?].
  - apply (base_grow _ _ Hb); simpl; [by apply grows_refl_clients|done|].
    intros w' c' g' Hx. left. by apply working_delete in Hx as [? _].
  - apply (base_grow _ _ Hb); simpl; [by apply grows_refl_clients|done|].
    intros w' c' g' Hx. left. unfold working in Hx |- *. simpl in Hx. destruct (decide (w = w')) as [<-|Hne].
    + by rewrite lookup_insert in Hx.
    + by rewrite lookup_insert_ne in Hx.
  - destruct Hb as [H1 H2]. constructor; simpl.
    + intros c0 cl0 Hc0. apply lookup_delete_Some in Hc0 as [_ Hc0]. rewrite elem_of_app. left. by apply H1.
    + intros w c0 g Hwk. destruct (H2 w c0 g Hwk) as (d'&cb'&?). exists d', cb'. rewrite elem_of_app. by left.
  - by apply (base_grow _ _ Hb); [by apply grows_refl_clients| |auto].
  - by apply (base_grow _ _ Hb); [by apply grows_refl_clients| |auto].
Qed.

Lemma base_fresh x c : base x -> (forall d cb, ERecv (EvaluateDAG c d cb) ∉ s_log (x_s x)) ->
  s_clients (x_s x) !! c = None /\ forall w g, ~ working (x_s x) w c g.
Proof.
  intros [H1 H2] Hf. split.
  - destruct (s_clients (x_s x) !! c) as [cl|] eqn:E; [|done]. exfalso. by eapply Hf, H1.
  - intros w g Hw. destruct (H2 w c g Hw) as (d&cb&?). by eapply Hf.
Qed.

Lemma xstep_core x x' : base x -> core x -> xstep x x' -> core x'.
Proof.
  intros Hb Hcore Hst.
  destruct Hst as [s m Hm Hm2|s c d cb cl q Hd Hf Hs|s c cl f k Hc|s w c cl g gr results outs Hr Hw Hc Hg Hlen Ho
    |s w c cl g gr Hr Hw Hc Hg|s w Hw|s w Hw|s c ws Hr Hp|s c r w l Hr|s c cl Hc Hdone].
  - by eapply (core_sub _ _ Hcore).
  - destruct (submit_submitted _ _ _ _ _ _ Hd Hs) as [Hdd Hcb Hru Hha Hio Hre Hmi (new&Hq&Hen&Hcnt)].
    destruct (base_fresh _ c Hb Hf) as [Hnone Hnw]. simpl in Hnone, Hnw.
    destruct Hcore as [H1 H2 H3 H4 H5 H6]. simpl in *.
    assert (Hold : forall c0 cl0, s_clients s !! c0 = Some cl0 -> c0 <> c) by congruence.
    constructor; simpl.
    + intros c0 cl0 Hc0. destruct (decide (c = c0)) as [<-|Hne].
      * rewrite lookup_insert in Hc0. injection Hc0 as <-. by rewrite Hdd.
      * rewrite lookup_insert_ne in Hc0 by done. eauto.
    + intros c0 cl0 Hc0. destruct (decide (c = c0)) as [<-|Hne].
      * rewrite lookup_insert in Hc0. injection Hc0 as <-. intros f g. rewrite Hdd. apply Hio.
      * rewrite lookup_insert_ne in Hc0 by done. eauto.
    + intros c0 cl0 Hc0. destruct (decide (c = c0)) as [<-|Hne].
      * rewrite lookup_insert in Hc0. injection Hc0 as <-. intros g M HM.
        apply Hmi in HM as (gr&Hin&Hne&->). exists gr. rewrite Hdd. split; [done|]. split.
        { intros Hx. destruct (group_deps gr) as [|f l]; [done|]. apply (not_elem_of_empty (C:=gset file_uuid) f).
          rewrite <- Hx. set_solver. }
        split; set_solver.
      * rewrite lookup_insert_ne in Hc0 by done. eauto.
    + intros en Hin. rewrite Hq in Hin. apply elem_of_app in Hin as [Hin|Hin].
      * destruct (Hen en Hin) as (->&gr&Hgr&Hde). rewrite lookup_insert. split; [eauto|].
        intros cl0. simpl. rewrite lookup_insert. intros [= <-]. exists gr. rewrite Hdd. split; [done|].
        intros f Hf'. rewrite Hde in Hf'. by apply not_elem_of_nil in Hf'.
      * destruct (H4 en Hin) as [[cl0 Hcl0] Hi]. assert (en_client en <> c) by eauto.
        rewrite lookup_insert_ne by done. split; [eauto|]. intros cl1. simpl. rewrite lookup_insert_ne by done. apply Hi.
    + intros w c0 g Hwk. assert (c <> c0) by (intros <-; by eapply Hnw).
      intros cl1. simpl. rewrite lookup_insert_ne by done. by eapply H5.
    + intros c0 g Hin. by apply not_elem_of_nil in Hin.
  - eapply (core_upd _ _ c cl); [exact Hcore|done|reflexivity|reflexivity| | | | |]; simpl; auto.
    + intros f' Hf'. destruct (decide (f = f')) as [<-|]; [rewrite lookup_insert; eauto|by rewrite lookup_insert_ne].
    + eapply wait_ok_same; [by eapply (co_wait _ Hcore)|done| |reflexivity]. simpl.
      intros f' Hf'. destruct (decide (f = f')) as [<-|]; [rewrite lookup_insert; eauto|by rewrite lookup_insert_ne].
  - eapply (core_upd _ _ c cl); [exact Hcore|done|apply completed_clients|reflexivity| | | | |]; simpl; auto.
    + intros f'. apply outs_union_handles.
    + eapply wait_ok_same; [by eapply (co_wait _ Hcore)|done| |reflexivity]. simpl. intros f'. apply outs_union_handles.
    + intros en. rewrite completed_queue. auto.
    + intros w' c' g'. unfold working. rewrite completed_workers. intros Hx. left. by apply lookup_delete_Some in Hx as [_ ?].
  - assert (Hi : item_ok s c g) by (by eapply (co_jobs _ Hcore)).
    eapply (core_upd _ _ c cl); [exact Hcore|done|reflexivity|reflexivity|done| | | |]; simpl; auto.
    + eapply wait_ok_same; [by eapply (co_wait _ Hcore)|done|done|reflexivity].
    + intros en Hin. apply elem_of_cons in Hin as [->|Hin]; [right|by left]. split; [done|]. simpl.
      eapply (item_ok_grows s); [|done]. eapply grows_upd; [done|reflexivity|reflexivity|done].
    + intros w' c' g' Hx. left. unfold working in Hx. simpl in Hx. by apply lookup_delete_Some in Hx as [_ ?].
  - eapply (core_sub _ _ Hcore); simpl; auto. intros w' c' g' Hx. by apply working_delete in Hx as [? _].
  - eapply (core_sub _ _ Hcore); simpl; auto. intros w' c' g' Hx. unfold working in Hx |- *. simpl in Hx.
    destruct (decide (w = w')) as [<-|Hne]; [by rewrite lookup_insert in Hx|by rewrite lookup_insert_ne in Hx].
  - destruct Hcore as [H1 H2 H3 H4 H5 H6]. simpl in *.
    assert (Hsub : forall c0 cl0, delete c (s_clients s) !! c0 = Some cl0 -> s_clients s !! c0 = Some cl0)
      by (intros c0 cl0 Hx; by apply lookup_delete_Some in Hx as [_ ?]).
    constructor; simpl; eauto.
    + intros en Hin. apply elem_of_list_filter in Hin as [Hs Hin]. split; [done|].
      intros cl0 Hcl0. eapply (proj2 (H4 en Hin)). by apply Hsub.
    + intros w c0 g Hwk cl0 Hcl0. eapply H5; [done|by apply Hsub].
    + intros c0 g Hin. by apply not_elem_of_nil in Hin.
  - by eapply (core_sub _ _ Hcore).
  - by eapply (core_sub _ _ Hcore).
Qed.

Lemma step_base x x' : base x -> step x x' -> base x'.
Proof. intros Hb [H|H]; [by eapply istep_base|by eapply xstep_base]. Qed.
Lemma step_core x x' : base x -> core x -> step x x' -> core x'.
Proof. intros Hb Hc [H|H]; [by eapply istep_core|by eapply xstep_core]. Qed.
Lemma steps_base_core x x' : base x -> core x -> rtc step x x' -> base x' /\ core x'.
Proof. intros Hb Hc Hst. induction Hst as [|x y z H _ IH]; [done|]. apply IH; [by eapply step_base|by eapply step_core]. Qed.
