(** Every event of a reachable trace is justified by its past; results of workers are cached. *)
From Verif Require Import SchedSpec SchedSteps SchedWalk SchedExt SchedReach SchedView SchedView2 SchedFiles SchedFiles2 SchedFiles3 CheckDagProofs CheckDagProofs2.
Local Arguments mu : simpl never.

Ltac inlog := rewrite ?elem_of_app, ?elem_of_cons; tauto.

Lemma farewell_cases c s ev : ev ∈ farewell c s -> ev = ESend c MEvaluationDone /\ exists cl, s_clients s !! c = Some cl.
Proof.
  unfold farewell. destruct (s_clients s !! c) as [cl|]; [destruct (is_done cl)|]; intros Hin; try (by apply not_elem_of_nil in Hin).
  apply elem_of_list_singleton in Hin. eauto.
Qed.
Lemma stops_cases c ws ev : ev ∈ stops c ws -> exists w g, ev = EStop w g /\ (w, Some (c, g)) ∈ ws.
Proof.
  unfold stops. intros Hin. apply elem_of_list_bind in Hin as ([w [[o g]|]]&Hev&Hin); simpl in Hev; [|by apply not_elem_of_nil in Hev].
  case_bool_decide as Ho; [|by apply not_elem_of_nil in Hev]. subst o. apply elem_of_list_singleton in Hev. eauto.
Qed.

Lemma istep_just x x' : base x -> core x -> pos x -> trace_justified (s_log (x_s x)) -> istep x x' -> trace_justified (s_log (x_s x')).
Proof.
  intros Hb Hcore Hp Hj Hst. destruct Hst as [L P s|L P s q Hq|L P P' s Hpp|L P c f s Hd|L P s c cl f k ok Hcl Hf Hk Hok
    |L P s c cl g gr M f Hcl HM Hgr Hf Hbad|L P s c cl g gr M f Hcl HM Hgr HMf Hh Hok|L P s c cl g gr M f Hcl HM Hgr HMf Hh Hok
    |L P s w en q cl gr keys Hw Hpop Hcl Hgr Hh Hkeys|L P s en q cl gr Hq Hcl Hgr Hca|L P s c cl g gr results outs Hcl Hgr Hlen Houts Hrc
    |L L' P s Hperm]; simpl in *; try exact Hj.
  - apply tj_one; [done|]. exists (cl_dag cl), (cl_cb cl). split; [by apply (ba_client _ Hb)|]. split; [done|]. split; [done|].
    split; [by eapply (po_handle _ Hp)|done].
  - assert (Hgu : g_uuid gr = g). { destruct (co_dag _ Hcore _ cl Hcl) as [(_&_&Hk) _]. by apply Hk. }
    pose proof (ba_client _ Hb c cl Hcl) as Hev. simpl in Hev.
    apply tj_block; [done| |].
    + exists (cl_dag cl), (cl_cb cl), gr, f. done.
    + intros l1 ev Hin. apply notify_ESend in Hin as (e&He&Hw&->). exists (cl_dag cl), (cl_cb cl), gr, e. rewrite Hgu.
      split; [inlog|]. split; [done|]. split; [inlog|done].
  - assert (Hgu : g_uuid gr = en_group en). { destruct (co_dag _ Hcore _ cl Hcl) as [(_&_&Hk) _]. by apply Hk. }
    pose proof (ba_client _ Hb _ cl Hcl) as Hev. simpl in Hev.
    assert (Hien : item (Cfg L P s) (en_client en) (en_group en)).
    { left. exists en. split; [|done]. simpl. rewrite (pop_max_perm _ _ _ Hpop). left. }
    apply tj_block; [done| |].
    + exists (cl_dag cl), (cl_cb cl). rewrite Hgu. split; [done|]. split; [done|]. split.
      * intros f Hf. split; [by eapply (po_item _ Hp)|]. destruct (Hh f Hf) as [k Hk]. exists k.
        split; [by apply Hkeys|]. by eapply (po_handle _ Hp).
      * intros f k Hk. by apply Hkeys in Hk as [? _].
    + intros l1 ev Hin. apply notify_ESend in Hin as (e&He&Hwt&->). exists (cl_dag cl), (cl_cb cl), gr, e, keys. rewrite Hgu.
      split; [inlog|]. split; [done|]. split; [inlog|done].
  - assert (Hgu : g_uuid gr = g). { destruct (co_dag _ Hcore _ cl Hcl) as [(_&_&Hk) _]. by apply Hk. }
    pose proof (ba_client _ Hb _ cl Hcl) as Hev. simpl in Hev.
    assert (Hien : item (Cfg ((c, g) :: L) P s) c g) by (right; left; left).
    apply tj_block; [done| |].
    + exists (cl_dag cl), (cl_cb cl), gr. rewrite Hgu. split; [done|]. split; [done|]. split; [done|]. split; [done|].
      split; [intros f Hf; by eapply (po_item _ Hp)|]. split; [|done]. eapply (po_limbo _ Hp); [left|done|done].
    + intros l1 ev Hin. apply notify_done_ESend in Hin as (e&r&He&Hwt&->).
      exists (cl_dag cl), (cl_cb cl), gr, e, true, results, outs. rewrite Hgu.
      split; [inlog|]. split; [done|]. split; [inlog|done].
Qed.

Lemma xstep_just x x' : base x -> core x -> subs x -> views x -> pos x -> trace_justified (s_log (x_s x)) -> xstep x x' -> trace_justified (s_log (x_s x')).
Proof.
  intros Hb Hcore Hsubs Hviews Hp Hj Hst.
  destruct Hst as [s m Hm Hm2|s c d cb cl q Hd Hf Hs|s c cl f k Hc|s w c cl g gr results outs Hr Hw Hc Hg Hlen Ho
    |s w c cl g gr Hr Hw Hc Hg|s w Hw|s w Hw|s c ws Hr Hpm|s c r w l Hr|s c cl Hc Hdone]; simpl in *; try exact Hj.
  - by apply tj_one.
  - by apply tj_one.
  - by apply tj_one.
  - assert (Hgu : g_uuid gr = g). { destruct (co_dag _ Hcore _ cl Hc) as [(_&_&Hk) _]. by apply Hk. }
    pose proof (ba_client _ Hb _ cl Hc) as Hev. simpl in Hev.
    assert (Hit : item (Cfg [] [] s) c g) by (right; right; eauto).
    destruct (po_job _ Hp _ _ _ Hw) as (gr'&keys&d'&cb'&Hjob&Hgu'&Hev'&Hg'). simpl in Hjob, Hev'.
    destruct (sb_uniq _ Hsubs _ _ _ _ _ Hev Hev') as [-> ->].
    assert (gr' = gr) as ->. { destruct (co_dag _ Hcore _ cl Hc) as [(_&Hnd&_) _]. by eapply groups_inj. }
    rewrite completed_log. simpl.
    apply tj_block; [done| |].
    + exists (cl_dag cl), (cl_cb cl), gr. rewrite Hgu. split; [done|]. split; [done|]. split; [done|]. split; [done|].
      split; [intros f Hf; by eapply (po_item _ Hp)|]. exists w, keys. done.
    + intros l1 ev Hin. apply elem_of_app in Hin as [Hin|Hin].
      * apply notify_done_ESend in Hin as (e&r&He&Hwt&->).
        exists (cl_dag cl), (cl_cb cl), gr, e, false, results, outs. rewrite Hgu.
        split; [inlog|]. split; [done|]. split; [inlog|done].
      * destruct (any_internal results) eqn:Eany; [by apply not_elem_of_nil in Hin|].
        apply elem_of_list_singleton in Hin as ->. exists outs. rewrite Hgu. split; [inlog|].
        split; [by apply any_internal_false|]. split; [|split].
        -- intros f Hf. destruct (Ho f Hf) as [k Hk]. rewrite Hk. apply lookup_union_Some_raw. by left.
        -- intros f Hf. apply outs_union_handles. destruct (co_jobs _ Hcore _ _ _ Hw cl Hc) as (gr'&Hgr'&Hh).
           assert (gr' = gr) as ->; [|by apply Hh]. destruct (co_dag _ Hcore _ cl Hc) as [(_&Hnd&_) _]. by eapply groups_inj.
        -- intros f k Hk. apply lookup_union_Some_raw in Hk as [Hk|[_ Hk]].
           ++ right. exists g, false, results, outs. split; [inlog|done].
           ++ apply provenance_mono. by eapply (po_handle _ Hp).
  - destruct (po_job _ Hp _ _ _ Hw) as (gr'&keys&d'&cb'&Hjob&Hgu'&Hev'&Hg'). simpl in Hjob.
    apply tj_one; [done|]. split; [done|]. by exists gr', keys.
  - apply tj_app; [done|]. intros l1 ev l2 E.
    assert (Hin : ev ∈ farewell c s ++ stops c ws) by (rewrite E; inlog).
    assert (Hl1 : forall ev', ev' ∈ l1 -> ev' ∈ farewell c s ++ stops c ws) by (intros ev' H'; rewrite E; inlog).
    assert (Hnr : forall m, ERecv m ∉ l1).
    { intros m Hm. apply Hl1, elem_of_app in Hm as [Hm|Hm]; [by apply farewell_cases in Hm as [? _]|].
      by apply stops_cases in Hm as (?&?&?&_). }
    apply elem_of_app in Hin as [Hin|Hin].
    + apply farewell_cases in Hin as [-> [cl Hcl]]. exists (cl_dag cl), (cl_cb cl).
      split; [rewrite elem_of_app; left; by apply (ba_client _ Hb)|]. left. by rewrite last_recv_app_norecv.
    + apply stops_cases in Hin as (w&g&->&Hin). rewrite Hpm in Hin. apply elem_of_map_to_list in Hin.
      destruct (po_job _ Hp w c g Hin) as (gr'&keys&d'&cb'&Hjob&Hgu'&_). simpl in Hjob.
      exists c, gr', keys. rewrite last_recv_app_norecv by done. split; [done|]. split; [inlog|done].
  - apply tj_one; [done|]. done.
  - apply tj_one; [done|]. exists (cl_dag cl), (cl_cb cl). split; [by apply (ba_client _ Hb)|]. right.
    intros g gr Hg. pose proof (vw_live _ Hviews c cl g gr Hc Hg) as Hv.
    assert (Hne : g_execs gr <> []) by (eapply wf_nonempty; [apply (co_dag _ Hcore c cl Hc)|done]).
    apply vreach_inv in Hv as (_&_&Hcov&_); [|done]. simpl in Hcov.
    unfold is_done in Hdone. rewrite !andb_true_iff, !bool_decide_eq_true in Hdone. destruct Hdone as [[Hrd Hrn] Hms].
    rewrite !bool_decide_eq_true in Hcov. destruct Hcov as [Hx|[Hx|[Hx|[Hx|Hx]]]].
    + exfalso. unfold waiting in Hx. rewrite Hms, lookup_empty in Hx. by destruct Hx.
    + exfalso. rewrite Hrd in Hx. set_solver.
    + exfalso. rewrite Hrn in Hx. set_solver.
    + exfalso. unfold lcount in Hx. simpl in Hx. lia.
    + assert (0 < count (is_completed c g) (s_log s) \/ 0 < count (is_skip c g) (s_log s)) as [Hy|Hy] by lia;
        apply count_pos in Hy as (ev&Hin&He); destruct ev; try done; simpl in He; apply bool_decide_eq_true in He as [-> ->].
      * left. eauto.
      * by right.
Qed.

Lemma istep_cached x x' : trace_cached (s_log (x_s x)) -> istep x x' -> trace_cached (s_log (x_s x')).
Proof.
  intros Hj Hst. destruct Hst as [L P s|L P s q Hq|L P P' s Hpp|L P c f s Hd|L P s c cl f k ok Hcl Hf Hk Hok
    |L P s c cl g gr M f Hcl HM Hgr Hf Hbad|L P s c cl g gr M f Hcl HM Hgr HMf Hh Hok|L P s c cl g gr M f Hcl HM Hgr HMf Hh Hok
    |L P s w en q cl gr keys Hw Hpop Hcl Hgr Hh Hkeys|L P s en q cl gr Hq Hcl Hgr Hca|L P s c cl g gr results outs Hcl Hgr Hlen Houts Hrc
    |L L' P s Hperm]; simpl in *; try exact Hj; apply tc_plain; try done; intros ev Hin.
  - by apply elem_of_list_singleton in Hin as ->.
  - apply elem_of_cons in Hin as [->|Hin]; [done|]. apply notify_is_send in Hin. by destruct ev.
  - apply elem_of_cons in Hin as [->|Hin]; [done|]. apply notify_is_send in Hin. by destruct ev.
  - apply elem_of_cons in Hin as [->|Hin]; [done|]. apply notify_done_is_send in Hin. by destruct ev.
Qed.
Lemma xstep_cached x x' : core x -> trace_cached (s_log (x_s x)) -> xstep x x' -> trace_cached (s_log (x_s x')).
Proof.
  intros Hcore Hj Hst.
  destruct Hst as [s m Hm Hm2|s c d cb cl q Hd Hf Hs|s c cl f k Hc|s w c cl g gr results outs Hr Hw Hc Hg Hlen Ho
    |s w c cl g gr Hr Hw Hc Hg|s w Hw|s w Hw|s c ws Hr Hpm|s c r w l Hr|s c cl Hc Hdone]; simpl in *; try exact Hj.
  4: { rewrite completed_log. apply tc_app; [done|]. intros l1 ev l2 E. destruct l1 as [|x l1]; injection E as <- E.
       - intros Hint. destruct (any_internal results) eqn:Ea.
         + apply any_internal_true in Ea as (r&Hin&Hr'). rewrite (Hint r Hin) in Hr'. done.
         + exists (notify_done c (cl_cb cl) (g_execs gr) results), gr, (outs ∪ cl_handles cl), []. split; [done|]. split; [done|].
           intros ev' Hin. apply notify_done_ESend in Hin as (e&r&_&_&->). eauto.
       - assert (Hin : ev ∈ notify_done c (cl_cb cl) (g_execs gr) results ++
            (if any_internal results then [] else [ECacheInsert c gr (outs ∪ cl_handles cl) results])) by (rewrite E; inlog).
         apply elem_of_app in Hin as [Hin|Hin].
         + apply notify_done_is_send in Hin. by destruct ev.
         + destruct (any_internal results); [by apply not_elem_of_nil in Hin|]. by apply elem_of_list_singleton in Hin as ->. }
  all: apply tc_plain; try done; intros ev Hin; try (by apply elem_of_list_singleton in Hin as ->).
  apply elem_of_app in Hin as [Hin|Hin]; [by apply farewell_cases in Hin as [-> _]|by apply stops_cases in Hin as (?&?&->&_)].
Qed.

Record inv2 (x : cfg) : Prop := {
  i2_subs : subs x; i2_views : views x; i2_pos : pos x; i2_blk : blk x;
  i2_just : trace_justified (s_log (x_s x)); i2_cached : trace_cached (s_log (x_s x)) }.
Lemma inv2_init : inv2 (Cfg [] [] init_state).
Proof.
  constructor; [apply subs_init|apply views_init|apply pos_init|apply blk_init|..]; intros l1 ev l2 E; simpl in E; by destruct l1.
Qed.
Lemma inv2_step x x' : base x -> core x -> inv2 x -> step x x' -> inv2 x'.
Proof.
  intros Hb Hc [H1 H2 H3 H4 H5 H6] Hst. constructor.
  - exact (subs_step _ _ Hb H1 Hst).
  - exact (views_step _ _ Hb Hc H1 H2 Hst).
  - destruct Hst; [by eapply istep_pos|by eapply xstep_pos].
  - destruct Hst as [Hst|Hst]; [exact (istep_blk _ _ Hc H4 Hst)|exact (xstep_blk _ _ Hc Hb H1 H4 Hst)].
  - destruct Hst as [Hst|Hst]; [exact (istep_just _ _ Hb Hc H3 H5 Hst)|exact (xstep_just _ _ Hb Hc H1 H2 H3 H5 Hst)].
  - destruct Hst as [Hst|Hst]; [exact (istep_cached _ _ H6 Hst)|exact (xstep_cached _ _ Hc H6 Hst)].
Qed.
Lemma reachable_inv2 env s : env_ok env -> reachable env s -> inv2 (Cfg [] [] s).
Proof.
  intros Henv Hr. eapply (reachable_inv env); [done|done|apply inv2_init| |].
  - intros x x' Hb Hc Hi Hst. eapply inv2_step; eauto. by left.
  - intros x x' Hb Hc Hi Hst. eapply inv2_step; eauto. by right.
Qed.
