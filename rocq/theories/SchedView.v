(** What happens to one group: every step of the scheduler is, for every group, a step of a small automaton. *)
From Verif Require Import SchedSpec SchedSteps SchedWalk SchedExt SchedReach CheckDagProofs CheckDagProofs2.
Local Arguments mu : simpl never.

(** ** The phase automaton on one event *)
Definition phase_job (w : worker_uuid) (p : phase) : phase := match p with Fresh | Back => Run w | _ => Bad end.
Definition phase_lost (w : worker_uuid) (p : phase) : phase :=
  match p with Run w' => if decide (w = w') then Back else Bad | _ => Bad end.
Definition phase_completed (fc : bool) (p : phase) : phase :=
  match p, fc with Run _, false => Completed | Fresh, true | Back, true => Completed | _, _ => Bad end.
Definition phase_skip (p : phase) : phase := match p with Fresh => Skipped | _ => Bad end.

(** Events about a group. *)
Definition about (c : client_uuid) (g : group_uuid) (ev : event) : Prop :=
  match ev with
  | EJob _ c' gr _ => c' = c /\ g_uuid gr = g
  | ELost c' g' _ => c' = c /\ g' = g
  | ECompleted c' g' _ _ _ => c' = c /\ g' = g
  | ESkip c' g' => c' = c /\ g' = g
  | _ => False
  end.
Lemma phase_step_other c g p ev : ~ about c g ev -> phase_step c g p ev = p.
Proof. destruct ev; simpl; try done; intros H; by rewrite decide_False. Qed.
Lemma phase_of_app c g l1 l2 : phase_of c g (l1 ++ l2) = fold_left (phase_step c g) l2 (phase_of c g l1).
Proof. unfold phase_of. apply fold_left_app. Qed.
Lemma phase_fold_other c g l : (forall ev, ev ∈ l -> ~ about c g ev) -> forall p, fold_left (phase_step c g) l p = p.
Proof.
  induction l as [|ev l IH]; intros H p; [done|]. simpl. rewrite phase_step_other by (apply H; left).
  apply IH. intros; apply H; by right.
Qed.
Lemma count_app p l1 l2 : count p (l1 ++ l2) = count p l1 + count p l2.
Proof. unfold count. by rewrite List.filter_app, app_length. Qed.
Lemma count_zero p l : (forall ev, ev ∈ l -> p ev = false) -> count p l = 0.
Proof.
  unfold count. induction l as [|ev l IH]; intros H; [done|]. simpl. rewrite H by left.
  apply IH. intros; apply H; by right.
Qed.
Lemma count_zero_inv p l : count p l = 0 -> forall ev, ev ∈ l -> p ev = false.
Proof.
  unfold count. induction l as [|x l IH]; intros H ev Hin; [by apply not_elem_of_nil in Hin|]. simpl in H.
  destruct (p x) eqn:E; [done|]. apply elem_of_cons in Hin as [->|Hin]; auto.
Qed.
Lemma count_pos p l : 0 < count p l <-> exists ev, ev ∈ l /\ p ev = true.
Proof.
  split.
  - unfold count. induction l as [|x l IH]; simpl; [lia|]. destruct (p x) eqn:E.
    + intros _. exists x. split; [left|done].
    + intros H. destruct (IH H) as (ev&?&?). exists ev. split; [by right|done].
  - intros (ev&Hin&He). destruct (decide (count p l = 0)) as [Hz|]; [|lia].
    by rewrite (count_zero_inv _ _ Hz ev Hin) in He.
Qed.

Lemma notify_ESend c cb mk es ev : ev ∈ notify c cb mk es ->
  exists e, e ∈ es /\ e_uuid e ∈ w_executions cb /\ ev = ESend c (mk e).
Proof.
  unfold notify. intros H. apply elem_of_list_fmap in H as (e&->&H). apply elem_of_list_filter in H as [Hw Hin].
  exists e. split; [done|]. split; [|done]. unfold watched in Hw. by apply bool_decide_eq_true in Hw.
Qed.
Lemma notify_done_ESend c cb es rs ev : ev ∈ notify_done c cb es rs ->
  exists e r, (e, r) ∈ zip es rs /\ e_uuid e ∈ w_executions cb /\ ev = ESend c (MDone (e_uuid e) r).
Proof.
  unfold notify_done. intros H. apply elem_of_list_fmap in H as ([e r]&->&H). apply elem_of_list_filter in H as [Hw Hin].
  exists e, r. split; [done|]. split; [|done]. unfold watched in Hw. by apply bool_decide_eq_true in Hw.
Qed.
Definition is_send (ev : event) : Prop := match ev with ESend _ _ => True | _ => False end.
Lemma notify_is_send c cb mk es : forall ev, ev ∈ notify c cb mk es -> is_send ev.
Proof. intros ev H. by apply notify_ESend in H as (e&_&_&->). Qed.
Lemma notify_done_is_send c cb es rs : forall ev, ev ∈ notify_done c cb es rs -> is_send ev.
Proof. intros ev H. by apply notify_done_ESend in H as (e&r&_&_&->). Qed.
Lemma send_not_about c g ev : is_send ev -> ~ about c g ev.
Proof. destruct ev; simpl; tauto. Qed.

(** The part of a trace that matters for a group. *)
Record lview := LV { lv_ph : phase; lv_cp : nat; lv_sk : nat; lv_jb : nat }.
Definition lview_of (c : client_uuid) (g : group_uuid) (log : list event) : lview :=
  LV (phase_of c g log) (count (is_completed c g) log) (count (is_skip c g) log) (count (is_job c g) log).
Definition lv_step (v : lview) (ev : event) : lview :=
  match ev with
  | EJob w _ _ _ => LV (phase_job w (lv_ph v)) (lv_cp v) (lv_sk v) (S (lv_jb v))
  | ELost _ _ w => LV (phase_lost w (lv_ph v)) (lv_cp v) (lv_sk v) (lv_jb v)
  | ECompleted _ _ fc _ _ => LV (phase_completed fc (lv_ph v)) (S (lv_cp v)) (lv_sk v) (lv_jb v)
  | ESkip _ _ => LV (phase_skip (lv_ph v)) (lv_cp v) (S (lv_sk v)) (lv_jb v)
  | _ => v
  end.
Lemma lview_same c g log l : (forall ev, ev ∈ l -> ~ about c g ev) -> lview_of c g (log ++ l) = lview_of c g log.
Proof.
  intros H. unfold lview_of. rewrite phase_of_app, phase_fold_other, !count_app by done.
  rewrite !(count_zero _ l), !Nat.add_0_r; [done|..]; intros ev Hev; specialize (H ev Hev);
    destruct ev; simpl in *; try done; by apply bool_decide_eq_false_2.
Qed.
Lemma lview_event c g log ev l : about c g ev -> (forall ev, ev ∈ l -> ~ about c g ev) ->
  lview_of c g (log ++ ev :: l) = lv_step (lview_of c g log) ev.
Proof.
  intros Ha Hl. change (ev :: l) with ([ev] ++ l). rewrite app_assoc, lview_same by done.
  unfold lview_of. rewrite phase_of_app, !count_app. unfold count at 2 4 6.
  destruct ev; simpl in Ha; try done; simpl; rewrite ?(bool_decide_eq_true_2 _ Ha), ?(decide_True _ _ Ha); simpl;
    rewrite ?Nat.add_0_r, ?Nat.add_1_r; done.
Qed.

(** ** The view of a group *)
Definition wk_set (s : state) (c : client_uuid) (g : group_uuid) : gset worker_uuid :=
  dom (filter (fun wj : worker_uuid * option (client_uuid * group_uuid) => wj.2 = Some (c, g)) (s_workers s)).
Lemma elem_wk_set s c g w : w ∈ wk_set s c g <-> working s w c g.
Proof.
  unfold wk_set, working. rewrite elem_of_dom. split.
  - intros [j Hj]. apply map_filter_lookup_Some in Hj as [Hj ?]. simpl in *. by subst.
  - intros H. exists (Some (c, g)). by apply map_filter_lookup_Some.
Qed.
Definition lcount (c : client_uuid) (g : group_uuid) (L : list (client_uuid * group_uuid)) : nat :=
  length (filter (fun cg => cg = (c, g)) L).
Lemma lcount_cons c g cg L : lcount c g (cg :: L) = (if decide (cg = (c, g)) then 1 else 0) + lcount c g L.
Proof. unfold lcount. rewrite filter_cons. by destruct (decide (cg = (c, g))). Qed.
Lemma lcount_perm c g L L' : L ≡ₚ L' -> lcount c g L = lcount c g L'.
Proof. intros H. unfold lcount. by rewrite H. Qed.
Lemma lcount_pos c g L : 0 < lcount c g L <-> (c, g) ∈ L.
Proof.
  induction L as [|cg L IH]; [simpl; rewrite elem_of_nil; unfold lcount; simpl; lia|].
  rewrite lcount_cons, elem_of_cons. destruct (decide (cg = (c, g))) as [->|Hne]; [split; [auto|lia]|].
  simpl. rewrite IH. split; [auto|]. intros [E|?]; [congruence|done].
Qed.

Record view := V { wt : bool; qn : nat; ln : nat; wk : gset worker_uuid; rd : bool; rn : bool; lv : lview }.
Definition view_of (x : cfg) (c : client_uuid) (cl : client) (g : group_uuid) : view :=
  V (bool_decide (waiting cl g)) (queue_count c g (s_queue (x_s x))) (lcount c g (x_l x)) (wk_set (x_s x) c g)
    (bool_decide (g ∈ cl_ready cl)) (bool_decide (g ∈ cl_running cl)) (lview_of c g (s_log (x_s x))).

Definition vinit (gr : group) : view :=
  V (bool_decide (group_deps gr <> [])) (if bool_decide (group_deps gr = []) then length (g_execs gr) else 0) 0 ∅
    (bool_decide (group_deps gr = [])) false (LV Fresh 0 0 0).

Definition l_skip v := LV (phase_skip (lv_ph v)) (lv_cp v) (S (lv_sk v)) (lv_jb v).
Definition l_job w v := LV (phase_job w (lv_ph v)) (lv_cp v) (lv_sk v) (S (lv_jb v)).
Definition l_lost w v := LV (phase_lost w (lv_ph v)) (lv_cp v) (lv_sk v) (lv_jb v).
Definition l_completed fc v := LV (phase_completed fc (lv_ph v)) (S (lv_cp v)) (lv_sk v) (lv_jb v).

Inductive vstep : view -> view -> Prop :=
  | vs_same v : vstep v v
  | vs_skip q l k r n v : vstep (V true q l k r n v) (V false q l k r n (l_skip v))
  | vs_enable q l k r n v : vstep (V true q l k r n v) (V false (S q) l k true n v)
  | vs_assign t q l k r n v w : w ∉ k -> vstep (V t (S q) l k r n v) (V t q l ({[w]} ∪ k) false true (l_job w v))
  | vs_hit t q l k r n v : vstep (V t (S q) l k r n v) (V t q (S l) k false n v)
  | vs_cached t q l k r n v : vstep (V t q (S l) k r n v) (V t q l k r n (l_completed true v))
  | vs_done t q l k r n v w : w ∈ k -> vstep (V t q l k r n v) (V t q l (k ∖ {[w]}) r false (l_completed false v))
  | vs_lost t q l k r n v w : w ∈ k -> vstep (V t q l k r n v) (V t (S q) l (k ∖ {[w]}) true false (l_lost w v)).

Inductive vreach (gr : group) : view -> Prop :=
  | vr_init : vreach gr (vinit gr)
  | vr_step v v' : vreach gr v -> vstep v v' -> vreach gr v'.

Lemma vstep_eq v v1 v2 : vstep v v1 -> v1 = v2 -> vstep v v2.
Proof. by intros ? ->. Qed.
Lemma vstep_id v v' : v' = v -> vstep v v'.
Proof. intros ->. constructor. Qed.
Lemma V_eq t q l k r n v t' q' l' k' r' n' v' : t = t' -> q = q' -> l = l' -> k = k' -> r = r' -> n = n' -> v = v' ->
  V t q l k r n v = V t' q' l' k' r' n' v'.
Proof. congruence. Qed.

(** An update of the client that leaves the group [g0] alone. *)
Lemma wk_set_eq s s' c g : s_workers s' = s_workers s -> wk_set s' c g = wk_set s c g.
Proof. unfold wk_set. by intros ->. Qed.
Lemma about_head_other c g c0 g0 ev : about c g ev -> (c0, g0) <> (c, g) -> ~ about c0 g0 ev.
Proof. destruct ev; simpl; try done; intros [] Hne []; subst; by apply Hne. Qed.

Lemma bd_iff (P Q : Prop) `{Decision P} `{Decision Q} : (P <-> Q) -> bool_decide P = bool_decide Q.
Proof. intros H1. by apply bool_decide_ext. Qed.
Lemma elem_union_ne (g g0 : group_uuid) (X : gset group_uuid) : g0 <> g -> g0 ∈ {[g]} ∪ X <-> g0 ∈ X.
Proof. set_solver. Qed.
Lemma elem_diff_ne (g g0 : group_uuid) (X : gset group_uuid) : g0 <> g -> g0 ∈ X ∖ {[g]} <-> g0 ∈ X.
Proof. set_solver. Qed.
Lemma waiting_delete_ne (cl : client) m g g0 : cl_missing cl = delete g m -> g0 <> g ->
  waiting cl g0 <-> is_Some (m !! g0).
Proof. intros E Hne. unfold waiting. by rewrite E, lookup_delete_ne. Qed.

Lemma upd_cases (m : gmap client_uuid client) c cl cl' c0 cl0' :
  m !! c = Some cl -> <[c := cl']> m !! c0 = Some cl0' ->
  (c0 = c /\ cl0' = cl') \/ (c0 <> c /\ m !! c0 = Some cl0').
Proof.
  intros Hc Hl. destruct (decide (c0 = c)) as [->|Hne].
  - rewrite lookup_insert in Hl. injection Hl as <-. auto.
  - rewrite lookup_insert_ne in Hl by done. auto.
Qed.

Lemma queue_cons_ne c g en q : (c, g) <> (en_client en, en_group en) -> queue_count c g (en :: q) = queue_count c g q.
Proof. intros Hne. rewrite queue_count_cons, decide_False; [done|]. intros [<- <-]. done. Qed.
Lemma queue_cons_eq c g en q : c = en_client en -> g = en_group en -> queue_count c g (en :: q) = S (queue_count c g q).
Proof. intros -> ->. by rewrite queue_count_cons, decide_True. Qed.
Lemma lcount_cons_ne c g cg L : (c, g) <> cg -> lcount c g (cg :: L) = lcount c g L.
Proof. intros Hne. by rewrite lcount_cons, decide_False. Qed.
Lemma lcount_cons_eq c g L : lcount c g ((c, g) :: L) = S (lcount c g L).
Proof. by rewrite lcount_cons, decide_True. Qed.

Definition vpre (x x' : cfg) : Prop := forall c cl' g gr,
  s_clients (x_s x') !! c = Some cl' -> (g, gr) ∈ d_groups (cl_dag cl') ->
  exists cl, s_clients (x_s x) !! c = Some cl /\ static cl = static cl' /\
    vstep (view_of x c cl g) (view_of x' c cl' g).
Ltac veq := apply V_eq; simpl; try done.
Ltac keep_client cl := exists cl; split; [done|]; split; [done|].

Lemma istep_view x x' : core x -> istep x x' -> vpre x x'.
Proof.
  intros Hcore Hst c0 cl0' g0 gr0 Hcl0 Hgr0. destruct Hst as [L P s|L P s q Hq|L P P' s Hp|L P c f s Hd|L P s c cl f k ok Hcl Hf Hk Hok
    |L P s c cl g gr M f Hcl HM Hgr Hf Hb|L P s c cl g gr M f Hcl HM Hgr HMf Hh Hok|L P s c cl g gr M f Hcl HM Hgr HMf Hh Hok
    |L P s w en q cl gr keys Hw Hpop Hcl Hgr Hh Hkeys|L P s en q cl gr Hq Hcl Hgr Hca|L P s c cl g gr results outs Hcl Hgr Hlen Houts Hrc
    |L L' P s Hperm]; simpl in Hcl0.
  - keep_client cl0'. constructor.
  - keep_client cl0'. apply vstep_id. veq. by apply queue_count_perm.
  - keep_client cl0'. constructor.
  - keep_client cl0'. constructor.
  - keep_client cl0'. apply vstep_id. veq. apply lview_same. intros ev Hev. apply elem_of_list_singleton in Hev as ->. simpl; tauto.
  - (* skip *)
    assert (Hns : forall c0 g0 ev, ev ∈ notify c (cl_cb cl) (λ e : execution, MSkipped (e_uuid e)) (g_execs gr) -> ~ about c0 g0 ev)
      by (intros c1 g1 ev Hev; by apply send_not_about, (notify_is_send _ _ _ _ _ Hev)).
    assert (Hother : (c0, g0) <> (c, g) -> lview_of c0 g0 (s_log (skip_state c cl g gr s)) = lview_of c0 g0 (s_log s)).
    { intros Hne. apply lview_same. intros ev Hev. apply elem_of_cons in Hev as [->|Hev]; [|by apply Hns].
      apply (about_head_other c g); [done|done]. }
    destruct (upd_cases _ _ _ _ _ _ Hcl Hcl0) as [[-> ->]|[Hne Hcl0']].
    + keep_client cl. destruct (decide (g0 = g)) as [->|Hneg].
      * eapply vstep_eq.
        -- unfold view_of. simpl. rewrite (bool_decide_eq_true_2 (waiting cl g)) by (unfold waiting; eauto). apply vs_skip.
        -- veq; symmetry.
           ++ apply bool_decide_eq_false_2. unfold waiting. simpl. rewrite lookup_delete. by intros [].
           ++ by rewrite (lview_event c g); [|simpl; done|apply Hns].
      * apply vstep_id. veq; [apply bd_iff; by eapply waiting_delete_ne|]. apply Hother. congruence.
    + keep_client cl0'. apply vstep_id. veq. apply Hother. congruence.
  - (* enable *)
    destruct (upd_cases _ _ _ _ _ _ Hcl Hcl0) as [[-> ->]|[Hne Hcl0']].
    + keep_client cl. destruct (decide (g0 = g)) as [->|Hneg].
      * eapply vstep_eq.
        -- unfold view_of. simpl. rewrite (bool_decide_eq_true_2 (waiting cl g)) by (unfold waiting; eauto). apply vs_enable.
        -- veq.
           ++ symmetry. apply bool_decide_eq_false_2. unfold waiting. simpl. rewrite lookup_delete. by intros [].
           ++ by rewrite queue_cons_eq.
           ++ symmetry. apply bool_decide_eq_true_2. set_solver.
      * apply vstep_id. veq.
        -- apply bd_iff. by eapply waiting_delete_ne.
        -- apply queue_cons_ne. simpl. congruence.
        -- apply bd_iff. by apply elem_union_ne.
    + keep_client cl0'. apply vstep_id. veq. apply queue_cons_ne. simpl. congruence.
  - (* shrink *)
    destruct (upd_cases _ _ _ _ _ _ Hcl Hcl0) as [[-> ->]|[Hne Hcl0']].
    + keep_client cl. apply vstep_id. veq. apply bd_iff. unfold waiting. simpl.
      destruct (decide (g0 = g)) as [->|Hneg]; [rewrite lookup_insert; naive_solver|by rewrite lookup_insert_ne].
    + keep_client cl0'. constructor.
  - (* assign *)
    pose proof (pop_max_perm _ _ _ Hpop) as Hperm.
    assert (Hgu : g_uuid gr = en_group en). { destruct (co_dag _ Hcore _ cl Hcl) as [(_&_&Hk) _]. by apply Hk. }
    set (ns := notify (en_client en) (cl_cb cl) (λ e : execution, MStarted (e_uuid e) w) (g_execs gr)).
    assert (Hns : forall c0 g0 ev, ev ∈ ns -> ~ about c0 g0 ev)
      by (intros c1 g1 ev Hev; by apply send_not_about, (notify_is_send _ _ _ _ _ Hev)).
    assert (Hother : (c0, g0) <> (en_client en, en_group en) ->
      lview_of c0 g0 (s_log (assign_state w en q cl gr keys s)) = lview_of c0 g0 (s_log s)).
    { intros Hne. apply lview_same. intros ev Hev. apply elem_of_cons in Hev as [->|Hev]; [|by apply Hns].
      apply (about_head_other (en_client en) (en_group en)); [|done]. simpl. done. }
    assert (Hwk : (c0, g0) <> (en_client en, en_group en) ->
      wk_set (assign_state w en q cl gr keys s) c0 g0 = wk_set s c0 g0).
    { intros Hne. apply set_eq. intros w'. rewrite !elem_wk_set. unfold working. simpl.
      destruct (decide (w = w')) as [<-|Hnw]; [rewrite lookup_insert|by rewrite lookup_insert_ne].
      rewrite Hw. split; congruence. }
    assert (Hqq : (c0, g0) <> (en_client en, en_group en) -> queue_count c0 g0 q = queue_count c0 g0 (s_queue s)).
    { intros Hne. rewrite (queue_count_perm _ _ _ _ Hperm). by rewrite queue_cons_ne. }
    destruct (upd_cases _ _ _ _ _ _ Hcl Hcl0) as [[-> ->]|[Hne Hcl0']].
    + keep_client cl. destruct (decide (g0 = en_group en)) as [->|Hneg].
      * eapply vstep_eq.
        -- unfold view_of. simpl. rewrite (queue_count_perm _ _ _ _ Hperm), queue_cons_eq by done.
           apply (vs_assign _ _ _ _ _ _ _ w). rewrite elem_wk_set. unfold working. congruence.
        -- veq.
           ++ apply set_eq. intros w'. rewrite elem_of_union, elem_of_singleton, !elem_wk_set. unfold working. simpl.
              destruct (decide (w = w')) as [<-|Hnw]; [rewrite lookup_insert; naive_solver|].
              rewrite lookup_insert_ne by done. naive_solver.
           ++ symmetry. apply bool_decide_eq_false_2. set_solver.
           ++ symmetry. apply bool_decide_eq_true_2. set_solver.
           ++ symmetry. by rewrite (lview_event (en_client en) (en_group en)); [|simpl; done|apply Hns].
      * assert (Hne : (en_client en, g0) <> (en_client en, en_group en)) by congruence.
        apply vstep_id. veq; auto.
        -- apply bd_iff. by apply elem_diff_ne.
        -- apply bd_iff. by apply elem_union_ne.
    + assert (Hne' : (c0, g0) <> (en_client en, en_group en)) by congruence.
      keep_client cl0'. apply vstep_id. veq; auto.
  - (* hit *)
    destruct (upd_cases _ _ _ _ _ _ Hcl Hcl0) as [[-> ->]|[Hne Hcl0']].
    + keep_client cl. destruct (decide (g0 = en_group en)) as [->|Hneg].
      * eapply vstep_eq.
        -- unfold view_of. simpl. rewrite Hq, queue_cons_eq by done. apply vs_hit.
        -- veq; [by rewrite lcount_cons_eq|]. symmetry. apply bool_decide_eq_false_2. set_solver.
      * assert (Hne : (en_client en, g0) <> (en_client en, en_group en)) by congruence.
        apply vstep_id. veq.
        -- rewrite Hq. by rewrite queue_cons_ne.
        -- by apply lcount_cons_ne.
        -- apply bd_iff. by apply elem_diff_ne.
    + assert (Hne' : (c0, g0) <> (en_client en, en_group en)) by congruence.
      keep_client cl0'. apply vstep_id. veq; [|by apply lcount_cons_ne]. rewrite Hq. by rewrite queue_cons_ne.
  - (* complete_cached *)
    assert (Hgu : g_uuid gr = g). { destruct (co_dag _ Hcore _ cl Hcl) as [(_&_&Hk) _]. by apply Hk. }
    assert (Hns : forall c0 g0 ev, ev ∈ notify_done c (cl_cb cl) (g_execs gr) results -> ~ about c0 g0 ev)
      by (intros c1 g1 ev Hev; by apply send_not_about, (notify_done_is_send _ _ _ _ _ Hev)).
    assert (Hother : (c0, g0) <> (c, g) ->
      lview_of c0 g0 (s_log (complete c cl gr results outs true s)) = lview_of c0 g0 (s_log s)).
    { intros Hne. apply lview_same. intros ev Hev. apply elem_of_cons in Hev as [->|Hev]; [|by apply Hns].
      apply (about_head_other c g); [|done]. simpl. done. }
    destruct (upd_cases _ _ _ _ _ _ Hcl Hcl0) as [[-> ->]|[Hne Hcl0']].
    + keep_client cl. destruct (decide (g0 = g)) as [->|Hneg].
      * eapply vstep_eq.
        -- unfold view_of. simpl. rewrite lcount_cons_eq. apply vs_cached.
        -- veq. symmetry. by rewrite (lview_event c g); [|simpl; done|apply Hns].
      * apply vstep_id. veq; [|apply Hother; congruence]. rewrite lcount_cons_ne; [done|congruence].
    + keep_client cl0'. apply vstep_id. veq; [|apply Hother; congruence]. rewrite lcount_cons_ne; [done|congruence].
  - keep_client cl0'. apply vstep_id. veq. symmetry. by apply lcount_perm.
Qed.
