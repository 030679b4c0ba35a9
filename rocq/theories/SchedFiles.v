(** Invariants about files, and the justification of every event of the trace. *)
From Verif Require Import SchedSpec SchedSteps SchedWalk SchedExt SchedReach SchedView SchedView2 CheckDagProofs CheckDagProofs2.
Local Arguments mu : simpl never.

Lemma provenance_mono c f k l l' : provenance c f k l -> provenance c f k (l ++ l').
Proof.
  intros [H|(g&fc&r&o&H&?)]; [left|right; exists g, fc, r, o; split; [|done]]; rewrite elem_of_app; by left.
Qed.

(** ** [announced] *)
Lemma announced_snoc c f log ev : announced c f (log ++ [ev]) <->
  announced c f log \/ ((exists k, ev = ERecv (FileReady c f k)) /\ exists d cb, ERecv (EvaluateDAG c d cb) ∈ log).
Proof.
  split.
  - intros (l1&l2&l3&d&cb&k&E). destruct l3 as [|x l3 _] using rev_ind.
    + right. replace (l1 ++ ERecv (EvaluateDAG c d cb) :: l2 ++ [ERecv (FileReady c f k)])
        with ((l1 ++ ERecv (EvaluateDAG c d cb) :: l2) ++ [ERecv (FileReady c f k)]) in E by (by rewrite <- app_assoc).
      apply app_inj_tail in E as [-> ->]. split; [eauto|]. exists d, cb. rewrite elem_of_app. right. left.
    + left. replace (l1 ++ ERecv (EvaluateDAG c d cb) :: l2 ++ ERecv (FileReady c f k) :: l3 ++ [x])
        with ((l1 ++ ERecv (EvaluateDAG c d cb) :: l2 ++ ERecv (FileReady c f k) :: l3) ++ [x]) in E
        by (rewrite <- app_assoc; simpl; by rewrite <- app_assoc).
      apply app_inj_tail in E as [-> ->]. repeat eexists.
  - intros [(l1&l2&l3&d&cb&k&->)|((k&->)&d&cb&Hin)].
    + exists l1, l2, (l3 ++ [ev]), d, cb, k. rewrite <- app_assoc. simpl. by rewrite <- app_assoc.
    + apply elem_of_list_split in Hin as (l1&l2&->). exists l1, l2, [], d, cb, k. by rewrite <- app_assoc.
Qed.
Lemma announced_norecv c f log l : (forall m, ERecv m ∉ l) -> announced c f (log ++ l) <-> announced c f log.
Proof.
  induction l as [|x l IH] using rev_ind; intros H; [by rewrite app_nil_r|].
  rewrite app_assoc, announced_snoc, IH.
  - split; [|auto]. intros [?|((k&->)&_)]; [done|]. exfalso. apply (H (FileReady c f k)). rewrite elem_of_app. right. left.
  - intros m Hm. apply (H m). rewrite elem_of_app. by left.
Qed.
Lemma announced_FileReady c f log : announced c f log -> exists k, ERecv (FileReady c f k) ∈ log.
Proof. intros (l1&l2&l3&d&cb&k&->). exists k. rewrite elem_of_app, elem_of_cons, elem_of_app, elem_of_cons. auto. Qed.

(** ** The invariant *)
Definition deps_ok (cl : client) (c : client_uuid) (g : group_uuid) (log : list event) : Prop :=
  forall gr f, (g, gr) ∈ d_groups (cl_dag cl) -> f ∈ group_deps gr -> ok_file (cl_dag cl) c f log.
Definition item (x : cfg) (c : client_uuid) (g : group_uuid) : Prop :=
  queued (x_s x) c g \/ (c, g) ∈ x_l x \/ exists w, working (x_s x) w c g.

Record files (x : cfg) : Prop := {
  fi_wait : forall c cl g M gr f, s_clients (x_s x) !! c = Some cl -> cl_missing cl !! g = Some M ->
    (g, gr) ∈ d_groups (cl_dag cl) -> f ∈ group_deps gr -> f ∉ M -> ok_file (cl_dag cl) c f (s_log (x_s x));
  fi_item : forall c cl g, s_clients (x_s x) !! c = Some cl -> item x c g -> deps_ok cl c g (s_log (x_s x));
  fi_handle : forall c cl f k, s_clients (x_s x) !! c = Some cl -> cl_handles cl !! f = Some k -> provenance c f k (s_log (x_s x));
  fi_job : forall w c g, working (x_s x) w c g -> exists gr keys d cb, EJob w c gr keys ∈ s_log (x_s x) /\ g_uuid gr = g /\
    ERecv (EvaluateDAG c d cb) ∈ s_log (x_s x) /\ (g, gr) ∈ d_groups d;
  fi_limbo : forall c cl g gr, (c, g) ∈ x_l x -> s_clients (x_s x) !! c = Some cl -> (g, gr) ∈ d_groups (cl_dag cl) ->
    cache_allowed (cl_dag cl) gr;
  fi_blk : forall c cl g M f, s_clients (x_s x) !! c = Some cl -> cl_missing cl !! g = Some M -> f ∈ M -> (c, f) ∉ x_p x ->
    ~ announced c f (s_log (x_s x)) /\
    forall h hr, (h, hr) ∈ d_groups (cl_dag cl) -> f ∈ group_outputs hr -> ~ settled c h (s_log (x_s x));
  fi_just : trace_justified (s_log (x_s x));
  fi_cached : trace_cached (s_log (x_s x))
}.

(** ** Traces *)
Lemma tj_app log l : trace_justified log ->
  (forall l1 ev l2, l = l1 ++ ev :: l2 -> justified (log ++ l1) ev) -> trace_justified (log ++ l).
Proof.
  intros H1 H2 l1 ev l2 E. apply app_eq_inv in E as [(k&E1&E2)|(k&E1&E2)].
  - destruct k as [|x k]; simpl in E2.
    + rewrite app_nil_r in E1. subst log. rewrite <- (app_nil_r l1). by eapply (H2 [] ev l2).
    + injection E2 as <- ->. by eapply (H1 l1 ev k).
  - subst l1. by eapply H2.
Qed.
Lemma tj_one log ev : trace_justified log -> justified log ev -> trace_justified (log ++ [ev]).
Proof.
  intros H1 H2. apply tj_app; [done|]. intros [|x l1] ev' l2 E; [|by destruct l1]. injection E as <- _. by rewrite app_nil_r.
Qed.
Lemma tj_block log h ns : trace_justified log -> justified log h ->
  (forall l1 ev, ev ∈ ns -> justified (log ++ h :: l1) ev) -> trace_justified (log ++ h :: ns).
Proof.
  intros H1 H2 H3. apply tj_app; [done|]. intros [|x l1] ev' l2 E; injection E as <- E'.
  - by rewrite app_nil_r.
  - apply H3. rewrite E'. rewrite elem_of_app. right. left.
Qed.
Lemma tc_app log l : trace_cached log ->
  (forall l1 ev l2, l = l1 ++ ev :: l2 -> cached_after ev l2) -> trace_cached (log ++ l).
Proof.
  intros H1 H2 l1 ev l2 E. apply app_eq_inv in E as [(k&E1&E2)|(k&E1&E2)].
  - destruct k as [|x k]; simpl in E2.
    + by eapply (H2 [] ev l2).
    + injection E2 as <- ->. specialize (H1 l1 ev k E1). destruct ev; try done. destruct from_cache; [done|].
      intros Hr. destruct (H1 Hr) as (sends&gr&hs&rest&->&?&?). exists sends, gr, hs, (rest ++ l).
      split; [|done]. by rewrite <- app_assoc.
  - subst l1. by eapply H2.
Qed.
Definition not_completed (ev : event) : Prop := match ev with ECompleted _ _ false _ _ => False | _ => True end.
Lemma tc_plain log l : trace_cached log -> (forall ev, ev ∈ l -> not_completed ev) -> trace_cached (log ++ l).
Proof.
  intros H1 H2. apply tc_app; [done|]. intros l1 ev l2 E. assert (Hin : ev ∈ l) by (rewrite E, elem_of_app; right; left).
  specialize (H2 ev Hin). destruct ev; try done. by destruct from_cache.
Qed.

Lemma settled_app c g log l : settled c g (log ++ l) <-> settled c g log \/ settled c g l.
Proof. unfold settled. setoid_rewrite elem_of_app. naive_solver. Qed.
Lemma settled_none c g l : (forall ev, ev ∈ l -> ~ about c g ev) -> ~ settled c g l.
Proof. intros H [(fc&r&o&Hin)|Hin]; by apply (H _ Hin). Qed.

(** Positive parts: preserved when the log grows and the items shrink. *)
Lemma deps_ok_mono cl cl' c g log l : cl_dag cl' = cl_dag cl -> deps_ok cl c g log -> deps_ok cl' c g (log ++ l).
Proof. unfold deps_ok. intros -> H gr f Hg Hf. eapply ok_file_mono. eauto. Qed.

Lemma any_internal_false results : any_internal results = false ->
  forall r, r ∈ results -> is_internal_error (res_status r) = false.
Proof.
  unfold any_internal. intros H r Hr. destruct (is_internal_error (res_status r)) eqn:E; [|done].
  assert (existsb (fun r => is_internal_error (res_status r)) results = true); [|congruence].
  apply existsb_exists. exists r. split; [by apply elem_of_list_In|done].
Qed.
Lemma any_internal_true results : any_internal results = true -> exists r, r ∈ results /\ is_internal_error (res_status r) = true.
Proof.
  unfold any_internal. intros H. apply existsb_exists in H as (r&Hr&?). exists r. split; [by apply elem_of_list_In|done].
Qed.
Lemma last_recv_app_norecv l l' : (forall m, ERecv m ∉ l') -> last_recv (l ++ l') = last_recv l.
Proof.
  induction l' as [|x l' IH] using rev_ind; intros H; [by rewrite app_nil_r|].
  rewrite app_assoc. unfold last_recv in *. rewrite fold_left_app. simpl. rewrite IH.
  - destruct x; try done. exfalso. apply (H m). rewrite elem_of_app. right. left.
  - intros m Hm. apply (H m). rewrite elem_of_app. by left.
Qed.
