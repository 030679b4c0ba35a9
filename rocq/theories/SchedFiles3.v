(** Preservation of the file invariants: blocked files, justified traces, cached results. *)
From Verif Require Import SchedSpec SchedSteps SchedWalk SchedExt SchedReach SchedView SchedView2 SchedFiles SchedFiles2 CheckDagProofs CheckDagProofs2.
Local Arguments mu : simpl never.

Definition blk (x : cfg) : Prop := forall c cl g M f, s_clients (x_s x) !! c = Some cl -> cl_missing cl !! g = Some M -> f ∈ M -> (c, f) ∉ x_p x ->
    ~ announced c f (s_log (x_s x)) /\
    forall h hr, (h, hr) ∈ d_groups (cl_dag cl) -> f ∈ group_outputs hr -> ~ settled c h (s_log (x_s x)).

Lemma announced_app c f log l : announced c f (log ++ l) -> announced c f log \/ exists k, ERecv (FileReady c f k) ∈ l.
Proof.
  induction l as [|x l IH] using rev_ind; [rewrite app_nil_r; auto|].
  rewrite app_assoc, announced_snoc. intros [H|((k&->)&_)].
  - destruct (IH H) as [?|(k&?)]; [auto|]. right. exists k. rewrite elem_of_app. auto.
  - right. exists k. rewrite elem_of_app. right. left.
Qed.
Lemma announced_sub c f log : announced c f log -> exists d cb, ERecv (EvaluateDAG c d cb) ∈ log.
Proof. intros (l1&l2&l3&d&cb&k&->). exists d, cb. rewrite elem_of_app. right. left. Qed.

Lemma blk_sub x x' l : blk x -> s_log (x_s x') = s_log (x_s x) ++ l ->
  (forall c cl', s_clients (x_s x') !! c = Some cl' -> exists cl, s_clients (x_s x) !! c = Some cl /\ cl_dag cl' = cl_dag cl /\
     forall g M', cl_missing cl' !! g = Some M' -> exists M, cl_missing cl !! g = Some M /\ M' ⊆ M) ->
  (forall c cl' g M f, s_clients (x_s x') !! c = Some cl' -> cl_missing cl' !! g = Some M -> f ∈ M -> (c, f) ∈ x_p x -> (c, f) ∈ x_p x') ->
  (forall c f k, ERecv (FileReady c f k) ∈ l -> is_Some (s_clients (x_s x') !! c) -> (c, f) ∈ x_p x') ->
  (forall c cl' h hr f, s_clients (x_s x') !! c = Some cl' -> (h, hr) ∈ d_groups (cl_dag cl') -> f ∈ group_outputs hr ->
     settled c h l -> (c, f) ∈ x_p x') -> blk x'.
Proof.
  intros Hb Hl Hc Hp Hr Hset c cl' g M' f Hcl' HM' Hf Hn. destruct (Hc c cl' Hcl') as (cl&Hcl&Hd&Hm).
  destruct (Hm g M' HM') as (M&HM&Hsub).
  destruct (Hb c cl g M f Hcl HM (Hsub _ Hf)) as [H1 H2]. { intros Hx. apply Hn. eauto. }
  rewrite Hl. split.
  - intros Ha. apply announced_app in Ha as [?|(k&Hk)]; [done|]. apply Hn. eauto.
  - intros h hr Hh Hfo Hs. apply settled_app in Hs as [Hs|Hs]; [|apply Hn; eauto].
    rewrite Hd in Hh. by eapply H2.
Qed.

Lemma same_clients (m : gmap client_uuid client) c cl' : m !! c = Some cl' -> exists cl, m !! c = Some cl /\ cl_dag cl' = cl_dag cl /\
     forall g M', cl_missing cl' !! g = Some M' -> exists M, cl_missing cl !! g = Some M /\ M' ⊆ M.
Proof. intros H. exists cl'. split; [done|]. split; [done|]. intros g M' HM. by exists M'. Qed.
Lemma upd_clients (m : gmap client_uuid client) c0 cl0 cl0' c cl' : m !! c0 = Some cl0 -> cl_dag cl0' = cl_dag cl0 ->
  (forall g M', cl_missing cl0' !! g = Some M' -> exists M, cl_missing cl0 !! g = Some M /\ M' ⊆ M) ->
  <[c0 := cl0']> m !! c = Some cl' -> exists cl, m !! c = Some cl /\ cl_dag cl' = cl_dag cl /\
     forall g M', cl_missing cl' !! g = Some M' -> exists M, cl_missing cl !! g = Some M /\ M' ⊆ M.
Proof.
  intros H0 Hd Hm H. destruct (upd_cases _ _ _ _ _ _ H0 H) as [[-> ->]|[Hne Hcl']]; [by exists cl0|by eapply same_clients].
Qed.
Lemma no_recv_file (c : client_uuid) f k (l : list event) : (forall m, ERecv m ∉ l) -> ERecv (FileReady c f k) ∈ l -> False.
Proof. intros H Hx. by apply H in Hx. Qed.
Lemma settled_cons c h ev l : settled c h (ev :: l) <-> settled c h [ev] \/ settled c h l.
Proof. apply (settled_app c h [ev] l). Qed.
Lemma settled_sends c h l : (forall ev, ev ∈ l -> is_send ev) -> ~ settled c h l.
Proof. intros H. apply settled_none. intros ev Hev. by apply send_not_about, H. Qed.
Lemma sends_norecv (l : list event) : (forall ev, ev ∈ l -> is_send ev) -> forall m, ERecv m ∉ l.
Proof. intros H m Hm. by apply H in Hm. Qed.
Lemma cons_norecv ev (l : list event) : (forall m, ev <> ERecv m) -> (forall m, ERecv m ∉ l) -> forall m, ERecv m ∉ ev :: l.
Proof. intros H1 H2 m Hm. apply elem_of_cons in Hm as [Hm|Hm]; [by eapply H1|by eapply H2]. Qed.
Lemma settled_skip c h c' g : settled c h [ESkip c' g] -> c = c' /\ h = g.
Proof. intros [(?&?&?&H)|H]; apply elem_of_list_singleton in H; by simplify_eq. Qed.
Lemma settled_completed c h c' g fc r o : settled c h [ECompleted c' g fc r o] -> c = c' /\ h = g.
Proof. intros [(?&?&?&H)|H]; apply elem_of_list_singleton in H; by simplify_eq. Qed.

(** Settling the group [g]: the outputs become pending. *)
Lemma settle_pending x (m' : gmap client_uuid client) (P' : list (client_uuid * file_uuid)) c cl cl0 g gr ev sends : core x -> s_clients (x_s x) !! c = Some cl -> (g, gr) ∈ d_groups (cl_dag cl) ->
  cl_dag cl0 = cl_dag cl -> m' = <[c := cl0]> (s_clients (x_s x)) ->
  (forall c' h, settled c' h [ev] -> c' = c /\ h = g) -> (forall c' h, ~ settled c' h sends) ->
  (forall f, f ∈ group_outputs gr -> (c, f) ∈ P') ->
  forall c' cl' h hr f, m' !! c' = Some cl' -> (h, hr) ∈ d_groups (cl_dag cl') -> f ∈ group_outputs hr ->
     settled c' h (ev :: sends) -> (c', f) ∈ P'.
Proof.
  intros Hcore Hcl Hg Hd -> Hev Hs HP c' cl' h hr f Hcl' Hh Hf Hset.
  apply settled_cons in Hset as [Hset|Hset]; [|by apply Hs in Hset]. apply Hev in Hset as [-> ->].
  rewrite lookup_insert in Hcl'. injection Hcl' as <-. rewrite Hd in Hh.
  assert (hr = gr) as ->; [|by apply HP]. destruct (co_dag _ Hcore _ cl Hcl) as [(_&Hnd&_) _]. by eapply groups_inj.
Qed.

Lemma istep_blk x x' : core x -> blk x -> istep x x' -> blk x'.
Proof.
  intros Hcore Hb Hst. destruct Hst as [L P s|L P s q Hq|L P P' s Hpp|L P c f s Hd|L P s c cl f k ok Hcl Hf Hk Hok
    |L P s c cl g gr M f Hcl HM Hgr Hf Hbad|L P s c cl g gr M f Hcl HM Hgr HMf Hh Hok|L P s c cl g gr M f Hcl HM Hgr HMf Hh Hok
    |L P s w en q cl gr keys Hw Hpop Hcl Hgr Hh Hkeys|L P s en q cl gr Hq Hcl Hgr Hca|L P s c cl g gr results outs Hcl Hgr Hlen Houts Hrc
    |L L' P s Hperm].
  - exact Hb.
  - exact Hb.
  - intros c cl g M f Hcl HM Hf Hn. simpl in *. eapply (Hb c cl g M f); eauto.
  - intros c0 cl g M f0 Hcl HM Hf Hn. simpl in *. apply (Hb c0 cl g M f0 Hcl HM Hf). simpl.
    intros Hin. apply elem_of_cons in Hin as [[= -> ->]|?]; [|done]. by eapply (Hd cl g M).
  - eapply (blk_sub _ _ _ Hb); simpl; [reflexivity|..]; auto.
    + apply same_clients.
    + intros c0 f0 k0 Hin. by apply elem_of_list_singleton in Hin.
    + intros c0 cl' h hr f0 _ _ _ Hset. exfalso. eapply settled_sends; [|exact Hset]. intros ev ->%elem_of_list_singleton. done.
  - eapply (blk_sub _ _ _ Hb); simpl; [reflexivity|..].
    + intros c0 cl'. apply (upd_clients _ c cl); [done|done|]. simpl. intros g0 M0 HM0. apply lookup_delete_Some in HM0 as [_ ?]. by exists M0.
    + intros. rewrite elem_of_app. by right.
    + intros c0 f0 k0 Hin _. exfalso. eapply no_recv_file; [|exact Hin]. apply cons_norecv; [done|]. apply sends_norecv, notify_is_send.
    + eapply (settle_pending (Cfg L P s)); [done|exact Hcl|done| |reflexivity|intros c' h; apply (settled_skip c' h)| |].
      * done.
      * intros c' h. apply settled_sends, notify_is_send.
      * intros f0 Hf0. rewrite elem_of_app. left. apply elem_of_list_fmap. by exists f0.
  - eapply (blk_sub _ _ [] Hb); simpl; [by rewrite app_nil_r| | | |]; auto.
    + intros c0 cl'. apply (upd_clients _ c cl); [done|done|]. simpl. intros g0 M0 HM0. apply lookup_delete_Some in HM0 as [_ ?]. by exists M0.
    + intros c0 f0 k0 Hin. by apply not_elem_of_nil in Hin.
    + intros c0 cl' h hr f0 _ _ _ Hset. exfalso. eapply settled_sends; [|exact Hset]. intros ev Hx; by apply not_elem_of_nil in Hx.
  - eapply (blk_sub _ _ [] Hb); simpl; [by rewrite app_nil_r| | | |]; auto.
    + intros c0 cl'. apply (upd_clients _ c cl); [done|done|]. simpl. intros g0 M0 HM0. destruct (decide (g = g0)) as [<-|Hne].
      * rewrite lookup_insert in HM0. injection HM0 as <-. exists M. split; [done|]. set_solver.
      * rewrite lookup_insert_ne in HM0 by done. by exists M0.
    + intros c0 f0 k0 Hin. by apply not_elem_of_nil in Hin.
    + intros c0 cl' h hr f0 _ _ _ Hset. exfalso. eapply settled_sends; [|exact Hset]. intros ev Hx; by apply not_elem_of_nil in Hx.
  - eapply (blk_sub _ _ _ Hb); simpl; [reflexivity|..]; auto.
    + intros c0 cl'. apply (upd_clients _ (en_client en) cl); [done|done|]. simpl. intros g0 M0 HM0. by exists M0.
    + intros c0 f0 k0 Hin _. exfalso. eapply no_recv_file; [|exact Hin]. apply cons_norecv; [done|]. apply sends_norecv, notify_is_send.
    + intros c0 cl' h hr f0 _ _ _ Hset. exfalso. apply settled_cons in Hset as [Hset|Hset].
      * destruct Hset as [(?&?&?&H)|H]; by apply elem_of_list_singleton in H.
      * eapply settled_sends; [|exact Hset]. apply notify_is_send.
  - eapply (blk_sub _ _ [] Hb); simpl; [by rewrite app_nil_r| | | |]; auto.
    + intros c0 cl'. apply (upd_clients _ (en_client en) cl); [done|done|]. simpl. intros g0 M0 HM0. by exists M0.
    + intros c0 f0 k0 Hin. by apply not_elem_of_nil in Hin.
    + intros c0 cl' h hr f0 _ _ _ Hset. exfalso. eapply settled_sends; [|exact Hset]. intros ev Hx; by apply not_elem_of_nil in Hx.
  - assert (Hgu : g_uuid gr = g). { destruct (co_dag _ Hcore _ cl Hcl) as [(_&_&Hk) _]. by apply Hk. }
    eapply (blk_sub _ _ _ Hb); simpl; [reflexivity|..].
    + intros c0 cl'. apply (upd_clients _ c cl); [done|done|]. simpl. intros g0 M0 HM0. by exists M0.
    + intros. rewrite elem_of_app. by right.
    + intros c0 f0 k0 Hin _. exfalso. eapply no_recv_file; [|exact Hin]. apply cons_norecv; [done|]. apply sends_norecv, notify_done_is_send.
    + eapply (settle_pending (Cfg ((c, g) :: L) P s)); [done|exact Hcl|exact Hgr| |reflexivity| | |].
      * done.
      * rewrite Hgu. intros c' h. apply settled_completed.
      * intros c' h. apply settled_sends, notify_done_is_send.
      * intros f0 Hf0. rewrite elem_of_app. left. apply elem_of_list_fmap. by exists f0.
  - exact Hb.
Qed.

Lemma xstep_blk x x' : core x -> base x -> subs x -> blk x -> xstep x x' -> blk x'.
Proof.
  intros Hcore Hbase Hsubs Hb Hst.
  destruct Hst as [s m Hm Hm2|s c d cb cl q Hd Hf Hs|s c cl f k Hc|s w c cl g gr results outs Hr Hw Hc Hg Hlen Ho
    |s w c cl g gr Hr Hw Hc Hg|s w Hw|s w Hw|s c ws Hr Hpm|s c r w l Hr|s c cl Hc Hdone].
  - eapply (blk_sub _ _ _ Hb); simpl; [reflexivity|..]; auto.
    + apply same_clients.
    + intros c0 f0 k0 Hin%elem_of_list_singleton [cl Hcl]. injection Hin as <-. rewrite (Hm2 c0 f0 k0 eq_refl) in Hcl. done.
    + intros c0 cl' h hr f0 _ _ _ [(?&?&?&H)|H]; by apply elem_of_list_singleton in H.
  - destruct (submit_submitted _ _ _ _ _ _ Hd Hs) as [Hdd Hcb Hru Hha Hio Hre Hmi _].
    intros c0 cl0 g M f Hcl0 HM Hf0 Hn. simpl in *. destruct (decide (c = c0)) as [<-|Hne].
    + split.
      * intros Ha. apply announced_app in Ha as [Ha|(k&Ha)]; [|by apply elem_of_list_singleton in Ha].
        apply announced_sub in Ha as (d'&cb'&Hin). by eapply Hf.
      * intros h hr _ _ Hset. apply settled_app in Hset as [Hset|[(?&?&?&H)|H]]; [|by apply elem_of_list_singleton in H..].
        assert (exists ev, ev ∈ s_log s /\ ev_client ev = Some c) as (ev&Hev&Hevc).
        { destruct Hset as [(fc&r&o&Hin)|Hin]; eexists; (split; [exact Hin|done]). }
        destruct (sb_ev _ Hsubs ev c Hev Hevc) as (d'&cb'&Hin). by eapply Hf.
    + rewrite lookup_insert_ne in Hcl0 by done. destruct (Hb c0 cl0 g M f Hcl0 HM Hf0 Hn) as [H1 H2]. split.
      * intros Ha. apply announced_app in Ha as [Ha|(k&Ha)]; [done|by apply elem_of_list_singleton in Ha].
      * intros h hr Hh Hfo Hset. apply settled_app in Hset as [Hset|[(?&?&?&H)|H]]; [|by apply elem_of_list_singleton in H..].
        by eapply H2.
  - eapply (blk_sub _ _ _ Hb); simpl; [reflexivity|..].
    + intros c0 cl'. apply (upd_clients _ c cl); [done|done|]. simpl. intros g0 M0 HM0. by exists M0.
    + intros c0 cl' g0 M f0 _ _ _ Hx. by apply not_elem_of_nil in Hx.
    + intros c0 f0 k0 Hin%elem_of_list_singleton _. injection Hin as -> -> _. left.
    + intros c0 cl' h hr f0 _ _ _ [(?&?&?&H)|H]; by apply elem_of_list_singleton in H.
  - assert (Hgu : g_uuid gr = g). { destruct (co_dag _ Hcore _ cl Hc) as [(_&_&Hk) _]. by apply Hk. }
    assert (Hci : forall ev, ev ∈ (if any_internal results then [] else [ECacheInsert c gr (outs ∪ cl_handles cl) results]) ->
      (forall m, ev <> ERecv m) /\ forall c' g', ~ about c' g' ev).
    { intros ev Hin. destruct (any_internal results); [by apply not_elem_of_nil in Hin|].
      apply elem_of_list_singleton in Hin as ->. split; [done|]. intros c' g'. simpl; tauto. }
    eapply (blk_sub _ _ _ Hb); simpl; [apply completed_log| | | |].
    + rewrite completed_clients. intros c0 cl'. apply (upd_clients _ c cl); [done|done|]. simpl. intros g0 M0 HM0. by exists M0.
    + intros c0 cl' g0 M f0 _ _ _ Hx. by apply not_elem_of_nil in Hx.
    + intros c0 f0 k0 Hin _. exfalso. simpl in Hin. rewrite elem_of_cons, elem_of_app in Hin. destruct Hin as [Hin|[Hin|Hin]]; [done| |].
      * by apply notify_done_is_send in Hin.
      * by destruct (Hci _ Hin) as [Hx _]; eapply Hx.
    + eapply (settle_pending (Cfg [] [] s)); [done|exact Hc|exact Hg| |apply completed_clients| | |].
      * done.
      * rewrite Hgu. intros c' h. apply settled_completed.
      * intros c' h Hset. apply settled_app in Hset as [Hset|Hset].
        -- eapply settled_sends; [|exact Hset]. apply notify_done_is_send.
        -- eapply settled_none; [|exact Hset]. intros ev Hev. by apply (Hci ev Hev).
      * intros f0 Hf0. apply elem_of_list_fmap. by exists f0.
  - eapply (blk_sub _ _ _ Hb); simpl; [reflexivity|..]; auto.
    + intros c0 cl'. apply (upd_clients _ c cl); [done|done|]. simpl. intros g0 M0 HM0. by exists M0.
    + intros c0 f0 k0 Hin%elem_of_list_singleton. done.
    + intros c0 cl' h hr f0 _ _ _ [(?&?&?&H)|H]; by apply elem_of_list_singleton in H.
  - exact Hb.
  - exact Hb.
  - eapply (blk_sub _ _ _ Hb); simpl; [reflexivity|..]; auto.
    + intros c0 cl' Hcl'. apply lookup_delete_Some in Hcl' as [_ Hcl']. by eapply same_clients.
    + intros c0 f0 k0 Hin. exfalso. apply elem_of_app in Hin as [Hin|Hin].
      * unfold farewell in Hin. destruct (s_clients s !! c) as [cl|]; [destruct (is_done cl)|]; try (by apply not_elem_of_nil in Hin).
        by apply elem_of_list_singleton in Hin.
      * unfold stops in Hin. apply elem_of_list_bind in Hin as ([w [[o g]|]]&Hev&_); simpl in Hev; [|by apply not_elem_of_nil in Hev].
        case_bool_decide; [|by apply not_elem_of_nil in Hev]. by apply elem_of_list_singleton in Hev.
    + intros c0 cl' h hr f0 _ _ _ Hset. exfalso. eapply settled_none; [|exact Hset]. intros ev Hin. apply elem_of_app in Hin as [Hin|Hin].
      * unfold farewell in Hin. destruct (s_clients s !! c) as [cl|]; [destruct (is_done cl)|]; try (by apply not_elem_of_nil in Hin).
        apply elem_of_list_singleton in Hin as ->. simpl; tauto.
      * unfold stops in Hin. apply elem_of_list_bind in Hin as ([w [[o g]|]]&Hev&_); simpl in Hev; [|by apply not_elem_of_nil in Hev].
        case_bool_decide; [|by apply not_elem_of_nil in Hev]. apply elem_of_list_singleton in Hev as ->. simpl; tauto.
  - eapply (blk_sub _ _ _ Hb); simpl; [reflexivity|..]; auto.
    + apply same_clients.
    + intros c0 f0 k0 Hin%elem_of_list_singleton. done.
    + intros c0 cl' h hr f0 _ _ _ [(?&?&?&H)|H]; by apply elem_of_list_singleton in H.
  - eapply (blk_sub _ _ _ Hb); simpl; [reflexivity|..]; auto.
    + apply same_clients.
    + intros c0 f0 k0 Hin%elem_of_list_singleton. done.
    + intros c0 cl' h hr f0 _ _ _ [(?&?&?&H)|H]; by apply elem_of_list_singleton in H.
Qed.
Lemma blk_init : blk (Cfg [] [] init_state).
Proof. intros c cl g M f H. simpl in H. by rewrite lookup_empty in H. Qed.
