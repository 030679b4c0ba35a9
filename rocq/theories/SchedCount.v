(** The notifications of an execution, counted. *)
From Verif Require Import SchedSpec SchedSteps SchedWalk SchedExt SchedReach SchedView SchedView2 SchedFiles SchedFiles2 SchedFiles3 SchedFiles4 CheckDagProofs CheckDagProofs2.
Local Arguments mu : simpl never.

Record tally (c : client_uuid) (g : group_uuid) (u : exec_uuid) (wd : bool) (l : list event) : Prop := {
  ta_done : count (is_done_msg c u) l = if wd then count (is_completed c g) l else 0;
  ta_skip : count (is_skip_msg c u) l = if wd then count (is_skip c g) l else 0;
  ta_start : count (is_start_msg c u) l = if wd then count (is_job c g) l else 0
}.
Lemma tally_app c g u wd l1 l2 : tally c g u wd l1 -> tally c g u wd l2 -> tally c g u wd (l1 ++ l2).
Proof. intros [A1 A2 A3] [B1 B2 B3]. constructor; rewrite !count_app; destruct wd; lia. Qed.
(** Events without any effect on the tally. *)
Definition neutral (c : client_uuid) (ev : event) : Prop :=
  match ev with
  | ESend c' (MDone _ _) | ESend c' (MSkipped _) | ESend c' (MStarted _ _) => c' <> c
  | EJob _ c' _ _ | ECompleted c' _ _ _ _ | ESkip c' _ => c' <> c
  | _ => True
  end.
Lemma tally_neutral c g u wd l : (forall ev, ev ∈ l -> neutral c ev) -> tally c g u wd l.
Proof.
  intros H. constructor; rewrite !count_zero; try (by destruct wd);
    intros ev Hev; specialize (H ev Hev); destruct ev as [m|c' m|w c' gr k|w g'|c' gr h r|c' g' fc r o|c' g'|c' g' w]; try done;
    try (destruct m; try done); simpl in *; apply bool_decide_eq_false_2; naive_solver.
Qed.
Lemma count_cons p ev l : count p (ev :: l) = (if p ev then 1 else 0) + count p l.
Proof. unfold count. simpl. by destruct (p ev). Qed.

Lemma notify_count c cb mk (p : event -> bool) es u : NoDup (map e_uuid es) ->
  (forall e, p (ESend c (mk e)) = bool_decide (e_uuid e = u)) ->
  count p (notify c cb mk es) = if decide (u ∈ map e_uuid es /\ u ∈ w_executions cb) then 1 else 0.
Proof.
  intros Hnd Hp. induction es as [|e es IH]; [|rewrite map_cons in *].
  - rewrite decide_False; [done|]. intros [H _]. by apply not_elem_of_nil in H.
  - apply NoDup_cons in Hnd as [Hne Hnd]. specialize (IH Hnd). unfold notify in *. rewrite filter_cons.
    destruct (decide (watched cb (e_uuid e) = true)) as [Hw|Hw]; rewrite ?map_cons.
    + rewrite count_cons, Hp, IH. unfold watched in Hw. apply bool_decide_eq_true in Hw. case_bool_decide as He.
      * subst u. rewrite decide_False by (by intros [? _]). by rewrite decide_True by (split; [left|done]).
      * destruct (decide (u ∈ map e_uuid es ∧ u ∈ w_executions cb)) as [[? ?]|Hn]; cbn [Nat.add].
        -- by rewrite decide_True by (split; [by right|done]).
        -- rewrite decide_False; [done|]. intros [Hx ?]. apply elem_of_cons in Hx as [?|?]; [done|]. by apply Hn.
    + rewrite IH. unfold watched in Hw. rewrite bool_decide_eq_true in Hw.
      destruct (decide (u ∈ map e_uuid es ∧ u ∈ w_executions cb)) as [[? ?]|Hn]; cbn [Nat.add].
      * by rewrite decide_True by (split; [by right|done]).
      * rewrite decide_False; [done|]. intros [Hx ?]. apply elem_of_cons in Hx as [->|?]; [done|]. by apply Hn.
Qed.
Lemma notify_done_as c cb es rs : length rs = length es -> forall p u,
  NoDup (map e_uuid es) -> (forall e r, p (ESend c (MDone (e_uuid e) r)) = bool_decide (e_uuid e = u)) ->
  count p (notify_done c cb es rs) = if decide (u ∈ map e_uuid es /\ u ∈ w_executions cb) then 1 else 0.
Proof.
  intros Hlen p u Hnd Hp. revert rs Hlen. induction es as [|e es IH]; intros rs Hlen; [|rewrite map_cons in *].
  - rewrite decide_False; [done|]. intros [H _]. by apply not_elem_of_nil in H.
  - destruct rs as [|r rs]; [done|]. apply NoDup_cons in Hnd as [Hne Hnd]. injection Hlen as Hlen.
    specialize (IH Hnd rs Hlen). unfold notify_done in *. cbn [zip zip_with]. rewrite filter_cons. cbn [fst snd].
    destruct (decide (watched cb (e_uuid e) = true)) as [Hw|Hw]; rewrite ?map_cons.
    + rewrite count_cons, Hp, IH. unfold watched in Hw. apply bool_decide_eq_true in Hw. case_bool_decide as He.
      * subst u. rewrite decide_False by (by intros [? _]). by rewrite decide_True by (split; [left|done]).
      * destruct (decide (u ∈ map e_uuid es ∧ u ∈ w_executions cb)) as [[? ?]|Hn]; cbn [Nat.add].
        -- by rewrite decide_True by (split; [by right|done]).
        -- rewrite decide_False; [done|]. intros [Hx ?]. apply elem_of_cons in Hx as [?|?]; [done|]. by apply Hn.
    + rewrite IH. unfold watched in Hw. rewrite bool_decide_eq_true in Hw.
      destruct (decide (u ∈ map e_uuid es ∧ u ∈ w_executions cb)) as [[? ?]|Hn]; cbn [Nat.add].
      * by rewrite decide_True by (split; [by right|done]).
      * rewrite decide_False; [done|]. intros [Hx ?]. apply elem_of_cons in Hx as [->|?]; [done|]. by apply Hn.
Qed.

(** Identifiers of executions are unique in a DAG. *)
Lemma bind_nodup {A} (gs : list A) (f : A -> list positive) : NoDup (gs ≫= f) ->
  (forall x, x ∈ gs -> NoDup (f x)) /\
  (forall l1 x l2 y u, gs = l1 ++ x :: l2 -> y ∈ l1 ++ l2 -> u ∈ f x -> u ∈ f y -> False).
Proof.
  intros H. split.
  - intros x Hx. apply elem_of_list_split in Hx as (l1&l2&->). rewrite bind_app, bind_cons in H.
    apply NoDup_app in H as (_&_&H). by apply NoDup_app in H as (?&_&_).
  - intros l1 x l2 y u -> Hy Hux Huy. rewrite bind_app, bind_cons in H. apply NoDup_app in H as (_&H1&H2).
    apply NoDup_app in H2 as (_&H2&_). apply elem_of_app in Hy as [Hy|Hy].
    + apply (H1 u); [apply elem_of_list_bind; eauto|]. rewrite elem_of_app. by left.
    + apply (H2 u); [done|]. apply elem_of_list_bind; eauto.
Qed.
Lemma uuids_bind d : map e_uuid (dag_execs d) = (d_groups d) ≫= (fun kg => map e_uuid (g_execs kg.2)).
Proof.
  unfold dag_execs. induction (d_groups d) as [|[k g] l IH]; [done|]. simpl.
  rewrite map_app. f_equal. exact IH.
Qed.
Lemma execs_nodup d g gr : valid_dag d -> (g, gr) ∈ d_groups d -> NoDup (map e_uuid (g_execs gr)).
Proof.
  intros [_ Hwf] Hg. pose proof (wf_execs _ Hwf) as H. rewrite uuids_bind in H. apply bind_nodup in H as [H _].
  by apply (H (g, gr)).
Qed.
Lemma execs_disjoint d g gr g' gr' u : valid_dag d -> (g, gr) ∈ d_groups d -> (g', gr') ∈ d_groups d -> g <> g' ->
  u ∈ map e_uuid (g_execs gr) -> u ∈ map e_uuid (g_execs gr') -> False.
Proof.
  intros [_ Hwf] Hg Hg' Hne Hu Hu'. pose proof (wf_execs _ Hwf) as H. rewrite uuids_bind in H. apply bind_nodup in H as [_ H].
  apply elem_of_list_split in Hg as (l1&l2&E).
  eapply (H l1 (g, gr) l2 (g', gr') u E); [|done|done]. rewrite E in Hg'.
  rewrite elem_of_app, elem_of_cons in Hg'. rewrite elem_of_app. destruct Hg' as [?|[?|?]]; [by left|congruence|by right].
Qed.

(** A block about the group [g'] of the same client. *)
Lemma block_tally c d cb g gr g' gr' e (ev : event) ns : valid_dag d -> (g, gr) ∈ d_groups d -> (g', gr') ∈ d_groups d -> e ∈ g_execs gr ->
  (exists w keys, ev = EJob w c gr' keys /\ g_uuid gr' = g' /\ ns = notify c cb (fun e => MStarted (e_uuid e) w) (g_execs gr')) \/
  (ev = ESkip c g' /\ ns = notify c cb (fun e => MSkipped (e_uuid e)) (g_execs gr')) \/
  (exists fc rs o, ev = ECompleted c g' fc rs o /\ length rs = length (g_execs gr') /\ ns = notify_done c cb (g_execs gr') rs) ->
  tally c g (e_uuid e) (bool_decide (e_uuid e ∈ w_executions cb)) (ev :: ns).
Proof.
  intros Hd Hg Hg' He Hcase.
  assert (Hmem : e_uuid e ∈ map e_uuid (g_execs gr') <-> g' = g).
  { split.
    - intros Hx. destruct (decide (g = g')) as [|Hne]; [done|]. exfalso. eapply execs_disjoint; [exact Hd|exact Hg|exact Hg'|done| |done].
      apply elem_of_list_fmap. by exists e.
    - intros ->. assert (gr' = gr) as ->. { destruct Hd as [(_&Hnd&_) _]. by eapply groups_inj. }
      apply elem_of_list_fmap. by exists e. }
  assert (Hsum : forall n, (if decide (e_uuid e ∈ map e_uuid (g_execs gr') /\ e_uuid e ∈ w_executions cb) then 1 else 0) =
    (if bool_decide (e_uuid e ∈ w_executions cb) then (if bool_decide (c = c /\ g' = g) then 1 else 0) else n) + 0 \/
    bool_decide (e_uuid e ∈ w_executions cb) = false /\
     (if decide (e_uuid e ∈ map e_uuid (g_execs gr') /\ e_uuid e ∈ w_executions cb) then 1 else 0) = 0).
  { intros n. case_bool_decide as Hw.
    - left. case_bool_decide as Hx.
      + rewrite decide_True; [done|]. split; [by apply Hmem; destruct Hx|done].
      + rewrite decide_False; [done|]. rewrite Hmem. intros [Hy _]. by apply Hx.
    - right. split; [done|]. rewrite decide_False; [done|]. tauto. }
  pose proof (execs_nodup d g' gr' Hd Hg') as Hnd.
  destruct Hcase as [(w&keys&->&Hgu&->)|[[-> ->]|(fc&rs&o&->&Hlen&->)]]; constructor; rewrite !count_cons; simpl.
  all: try (rewrite !count_zero;
    [by destruct (bool_decide _)|(intros ev Hev; first [apply notify_ESend in Hev as (?&_&_&->)|apply notify_done_ESend in Hev as (?&?&_&_&->)]; reflexivity)..]).
  - rewrite (notify_count c cb (fun e => MStarted (e_uuid e) w) _ _ (e_uuid e) Hnd)
      by (intros e0; simpl; apply bd_iff; naive_solver).
    rewrite (count_zero (is_job c g)) by (intros ev Hev; by apply notify_ESend in Hev as (?&_&_&->)).
    rewrite Hgu. destruct (Hsum 0) as [->|[-> ->]]; [|done]. case_bool_decide; [|done]. by rewrite !Nat.add_0_r.
  - rewrite (notify_count c cb (fun e => MSkipped (e_uuid e)) _ _ (e_uuid e) Hnd)
      by (intros e0; simpl; apply bd_iff; naive_solver).
    rewrite (count_zero (is_skip c g)) by (intros ev Hev; by apply notify_ESend in Hev as (?&_&_&->)).
    destruct (Hsum 0) as [->|[-> ->]]; [|done]. case_bool_decide; [|done]. by rewrite !Nat.add_0_r.
  - rewrite (notify_done_as c cb _ rs Hlen _ (e_uuid e) Hnd)
      by (intros e0 r0; simpl; apply bd_iff; naive_solver).
    rewrite (count_zero (is_completed c g)) by (intros ev Hev; by apply notify_done_ESend in Hev as (?&?&_&_&->)).
    destruct (Hsum 0) as [->|[-> ->]]; [|done]. case_bool_decide; [|done]. by rewrite !Nat.add_0_r.
Qed.

Definition tallies (x : cfg) : Prop := forall c d cb g gr e, ERecv (EvaluateDAG c d cb) ∈ s_log (x_s x) -> (g, gr) ∈ d_groups d ->
  e ∈ g_execs gr -> tally c g (e_uuid e) (bool_decide (e_uuid e ∈ w_executions cb)) (s_log (x_s x)).

Lemma neutral_client c ev : ev_client ev <> Some c -> neutral c ev.
Proof. destruct ev as [m|c' m|w c' gr k|w g'|c' gr h r|c' g' fc r o|c' g'|c' g' w]; simpl; try done; try (intros ? ->; done). destruct m; simpl; try done; intros ? ->; done. Qed.

(** One block for the client [c0] with data [cl], then neutral events. *)
Lemma tallies_block x x' c0 cl g' gr' ev ns rest : core x -> base x -> subs x -> tallies x ->
  s_clients (x_s x) !! c0 = Some cl -> (g', gr') ∈ d_groups (cl_dag cl) ->
  s_log (x_s x') = s_log (x_s x) ++ (ev :: ns) ++ rest -> (forall m, ERecv m ∉ (ev :: ns) ++ rest) ->
  (forall c ev', ev' ∈ rest -> neutral c ev') ->
  (exists w keys, ev = EJob w c0 gr' keys /\ g_uuid gr' = g' /\ ns = notify c0 (cl_cb cl) (fun e => MStarted (e_uuid e) w) (g_execs gr')) \/
  (ev = ESkip c0 g' /\ ns = notify c0 (cl_cb cl) (fun e => MSkipped (e_uuid e)) (g_execs gr')) \/
  (exists fc rs o, ev = ECompleted c0 g' fc rs o /\ length rs = length (g_execs gr') /\ ns = notify_done c0 (cl_cb cl) (g_execs gr') rs) ->
  tallies x'.
Proof.
  intros Hcore Hb Hs Ht Hcl Hg' Hlog Hnr Hrest Hcase c d cb g gr e Hev Hg He. rewrite Hlog in Hev |- *.
  apply elem_of_app in Hev as [Hev|Hev]; [|by apply Hnr in Hev]. apply tally_app; [by eapply Ht|]. apply tally_app; [|apply tally_neutral; eauto].
  destruct (decide (c = c0)) as [->|Hne].
  - destruct (sb_uniq _ Hs _ _ _ _ _ Hev (ba_client _ Hb _ _ Hcl)) as [<- <-]. eapply (block_tally _ _ _ g gr g' gr'); [by eapply (sb_valid _ Hs)|done..].
  - apply tally_neutral. intros ev' Hin. apply neutral_client. apply elem_of_cons in Hin as [->|Hin].
    + destruct Hcase as [(w&keys&->&_)|[[-> _]|(fc&rs&o&->&_)]]; simpl; congruence.
    + destruct Hcase as [(w&keys&_&_&->)|[[_ ->]|(fc&rs&o&_&_&->)]].
      * apply notify_ESend in Hin as (?&_&_&->). simpl. congruence.
      * apply notify_ESend in Hin as (?&_&_&->). simpl. congruence.
      * apply notify_done_ESend in Hin as (?&?&_&_&->). simpl. congruence.
Qed.
Lemma tallies_neutral x x' l : tallies x -> s_log (x_s x') = s_log (x_s x) ++ l -> (forall c d cb, ERecv (EvaluateDAG c d cb) ∉ l) ->
  (forall c ev', ev' ∈ l -> neutral c ev') -> tallies x'.
Proof.
  intros Ht Hlog Hnr Hn c d cb g gr e Hev Hg He. rewrite Hlog in Hev |- *.
  apply elem_of_app in Hev as [Hev|Hev]; [|by apply Hnr in Hev]. apply tally_app; [by eapply Ht|]. apply tally_neutral; eauto.
Qed.

Lemma step_tallies x x' : core x -> base x -> subs x -> tallies x -> step x x' -> tallies x'.
Proof.
  intros Hcore Hb Hs Ht [Hst|Hst].
  - destruct Hst as [L P s|L P s q Hq|L P P' s Hpp|L P c f s Hd|L P s c cl f k ok Hcl Hf Hk Hok
    |L P s c cl g gr M f Hcl HM Hgr Hf Hbad|L P s c cl g gr M f Hcl HM Hgr HMf Hh Hok|L P s c cl g gr M f Hcl HM Hgr HMf Hh Hok
    |L P s w en q cl gr keys Hw Hpop Hcl Hgr Hh Hkeys|L P s en q cl gr Hq Hcl Hgr Hca|L P s c cl g gr results outs Hcl Hgr Hlen Houts Hrc
    |L L' P s Hperm]; try exact Ht.
    + eapply (tallies_neutral _ _ _ Ht); simpl; [reflexivity|..].
      * intros c0 d cb H%elem_of_list_singleton. done.
      * intros c0 ev ->%elem_of_list_singleton. done.
    + eapply (tallies_block _ _ c cl g gr _ _ [] Hcore Hb Hs Ht Hcl Hgr); simpl; [by rewrite app_nil_r| | |].
      * rewrite app_nil_r. apply cons_norecv; [done|]. apply sends_norecv, notify_is_send.
      * intros ? ? Hx. by apply not_elem_of_nil in Hx.
      * right. left. done.
    + assert (Hgu : g_uuid gr = en_group en). { destruct (co_dag _ Hcore _ cl Hcl) as [(_&_&Hk) _]. by apply Hk. }
      eapply (tallies_block _ _ (en_client en) cl (en_group en) gr _ _ [] Hcore Hb Hs Ht Hcl Hgr); simpl; [by rewrite app_nil_r| | |].
      * rewrite app_nil_r. apply cons_norecv; [done|]. apply sends_norecv, notify_is_send.
      * intros ? ? Hx. by apply not_elem_of_nil in Hx.
      * left. by exists w, keys.
    + assert (Hgu : g_uuid gr = g). { destruct (co_dag _ Hcore _ cl Hcl) as [(_&_&Hk) _]. by apply Hk. }
      eapply (tallies_block _ _ c cl g gr _ _ [] Hcore Hb Hs Ht Hcl Hgr); simpl; [by rewrite app_nil_r| | |].
      * rewrite app_nil_r. apply cons_norecv; [done|]. apply sends_norecv, notify_done_is_send.
      * intros ? ? Hx. by apply not_elem_of_nil in Hx.
      * right. right. rewrite Hgu. by exists true, results, outs.
  - destruct Hst as [s m Hm Hm2|s c d cb cl q Hd Hf Hs'|s c cl f k Hc|s w c cl g gr results outs Hr Hw Hc Hg Hlen Ho
    |s w c cl g gr Hr Hw Hc Hg|s w Hw|s w Hw|s c ws Hr Hpm|s c r w l Hr|s c cl Hc Hdone]; try exact Ht.
    + eapply (tallies_neutral _ _ _ Ht); simpl; [reflexivity|..].
      * intros c0 d cb H%elem_of_list_singleton. injection H as <-. by eapply Hm.
      * intros c0 ev ->%elem_of_list_singleton. done.
    + intros c0 d0 cb0 g gr e Hev Hg He. simpl in *. apply tally_app.
      * apply elem_of_app in Hev as [Hev|Hev]; [by eapply Ht|]. apply elem_of_list_singleton in Hev. injection Hev as -> -> ->.
        apply tally_neutral. intros ev Hin. apply neutral_client. intros Hx.
        destruct (sb_ev _ Hs ev c Hin Hx) as (d'&cb'&Hin'). by eapply Hf.
      * apply tally_neutral. intros ev ->%elem_of_list_singleton. done.
    + eapply (tallies_neutral _ _ _ Ht); simpl; [reflexivity|..].
      * intros c0 d cb H%elem_of_list_singleton. done.
      * intros c0 ev ->%elem_of_list_singleton. done.
    + assert (Hgu : g_uuid gr = g). { destruct (co_dag _ Hcore _ cl Hc) as [(_&_&Hk) _]. by apply Hk. }
      assert (Hci : forall ev, ev ∈ (if any_internal results then [] else [ECacheInsert c gr (outs ∪ cl_handles cl) results]) ->
        exists h, ev = ECacheInsert c gr h results).
      { intros ev Hin. destruct (any_internal results); [by apply not_elem_of_nil in Hin|].
        apply elem_of_list_singleton in Hin as ->. eauto. }
      eapply (tallies_block _ _ c cl g gr _ _ _ Hcore Hb Hs Ht Hc Hg); [apply completed_log| | |].
      * intros m Hin. apply elem_of_app in Hin as [Hin|Hin].
        -- apply elem_of_cons in Hin as [?|Hin]; [done|]. by apply notify_done_is_send in Hin.
        -- by apply Hci in Hin as [? ?].
      * intros c0 ev Hin. by apply Hci in Hin as [? ->].
      * right. right. rewrite Hgu. by exists false, results, outs.
    + eapply (tallies_neutral _ _ _ Ht); simpl; [reflexivity|..].
      * intros c0 d cb H%elem_of_list_singleton. done.
      * intros c0 ev ->%elem_of_list_singleton. done.
    + eapply (tallies_neutral _ _ _ Ht); simpl; [reflexivity|..].
      * intros c0 d cb Hin. apply elem_of_app in Hin as [Hin|Hin]; [by apply farewell_cases in Hin as [? _]|by apply stops_cases in Hin as (?&?&?&_)].
      * intros c0 ev Hin. apply elem_of_app in Hin as [Hin|Hin]; [by apply farewell_cases in Hin as [-> _]|by apply stops_cases in Hin as (?&?&->&_)].
    + eapply (tallies_neutral _ _ _ Ht); simpl; [reflexivity|..].
      * intros c0 d cb H%elem_of_list_singleton. done.
      * intros c0 ev ->%elem_of_list_singleton. done.
    + eapply (tallies_neutral _ _ _ Ht); simpl; [reflexivity|..].
      * intros c0 d cb H%elem_of_list_singleton. done.
      * intros c0 ev ->%elem_of_list_singleton. done.
Qed.

Lemma reachable_tallies env s : env_ok env -> reachable env s -> tallies (Cfg [] [] s).
Proof.
  intros Henv Hr. assert (Hi : inv2 (Cfg [] [] s) /\ tallies (Cfg [] [] s)); [|by destruct Hi].
  eapply (reachable_inv env (fun x => inv2 x /\ tallies x)); [done|done| | |].
  - split; [apply inv2_init|]. intros c d cb g gr e Hx. by apply not_elem_of_nil in Hx.
  - intros x x' Hb Hc [Hi Ht] Hst. assert (Hst' : step x x') by (by left). split; [exact (inv2_step _ _ Hb Hc Hi Hst')|].
    exact (step_tallies _ _ Hc Hb (i2_subs _ Hi) Ht Hst').
  - intros x x' Hb Hc [Hi Ht] Hst. assert (Hst' : step x x') by (by right). split; [exact (inv2_step _ _ Hb Hc Hi Hst')|].
    exact (step_tallies _ _ Hc Hb (i2_subs _ Hi) Ht Hst').
Qed.
