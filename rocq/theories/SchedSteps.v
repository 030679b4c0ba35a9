(** Proof infrastructure for the scheduler: every handler is a sequence of small steps on
    configurations (limbo, pending files, state); invariants are proved on the small steps.
    limbo: the cache hits collected by [schedule_cached] and not completed yet.
    pending: the files of completed/skipped groups whose consequences have not been handled yet. *)
From Verif Require Import SchedSpec CheckDagProofs CheckDagProofs2.

Record cfg := Cfg { x_l : list (client_uuid * group_uuid); x_p : list (client_uuid * file_uuid); x_s : state }.

Definition skip_state c cl g gr s : state :=
  emit (ESkip c g :: notify c (cl_cb cl) (fun e => MSkipped (e_uuid e)) (g_execs gr))
    (upd_client c (set_missing (delete g (cl_missing cl)) cl) s).
Definition enable_state c cl g gr s : state :=
  set_queue (Entry HIGH_PRIORITY (group_priority gr) g c :: s_queue s)
    (upd_client c (set_ready ({[g]} ∪ cl_ready cl) (set_missing (delete g (cl_missing cl)) cl)) s).
Definition assign_state w en q cl gr keys s : state :=
  emit (EJob w (en_client en) gr keys :: notify (en_client en) (cl_cb cl) (fun e => MStarted (e_uuid e) w) (g_execs gr))
    (upd_client (en_client en)
       (set_running ({[en_group en]} ∪ cl_running cl) (set_ready (cl_ready cl ∖ {[en_group en]}) cl))
       (set_workers (<[w := Some (en_client en, en_group en)]> (s_workers s)) (set_queue q s))).
Definition hit_state en q cl s : state :=
  set_queue q (upd_client (en_client en) (set_ready (cl_ready cl ∖ {[en_group en]}) cl) (tick s)).

Definition all_success (results : list exec_result) : bool := forallb (fun r => is_success (res_status r)) results.
Definition any_internal (results : list exec_result) : bool := existsb (fun r => is_internal_error (res_status r)) results.

(** Internal steps. *)
Inductive istep : cfg -> cfg -> Prop :=
  | is_tick L P s : istep (Cfg L P s) (Cfg L P (tick s))
  | is_queue L P s q : q ≡ₚ s_queue s -> istep (Cfg L P s) (Cfg L P (set_queue q s))
  | is_padd L P P' s : P ⊆ P' -> istep (Cfg L P s) (Cfg L P' s)
  | is_pdrop L P c f s :
      (forall cl g M, s_clients s !! c = Some cl -> cl_missing cl !! g = Some M -> f ∉ M) ->
      istep (Cfg L ((c, f) :: P) s) (Cfg L P s)
  | is_file L P s c cl f k ok :
      s_clients s !! c = Some cl -> f ∈ w_files (cl_cb cl) -> cl_handles cl !! f = Some k ->
      (if ok : bool then ok_file (cl_dag cl) c f (s_log s) else bad_file (cl_dag cl) c f (s_log s)) ->
      istep (Cfg L P s) (Cfg L P (emit [ESend c (MFile f k ok (bool_decide (f ∈ w_urgent (cl_cb cl))))] s))
  | is_skipped L P s c cl g gr M f :
      s_clients s !! c = Some cl -> cl_missing cl !! g = Some M -> (g, gr) ∈ d_groups (cl_dag cl) ->
      f ∈ group_deps gr -> bad_file (cl_dag cl) c f (s_log s) ->
      istep (Cfg L P s) (Cfg L (map (pair c) (group_outputs gr) ++ P) (skip_state c cl g gr s))
  | is_enable L P s c cl g gr M f :
      s_clients s !! c = Some cl -> cl_missing cl !! g = Some M -> (g, gr) ∈ d_groups (cl_dag cl) ->
      M ⊆ {[f]} -> is_Some (cl_handles cl !! f) -> ok_file (cl_dag cl) c f (s_log s) ->
      istep (Cfg L P s) (Cfg L P (enable_state c cl g gr s))
  | is_shrink L P s c cl g gr M f :
      s_clients s !! c = Some cl -> cl_missing cl !! g = Some M -> (g, gr) ∈ d_groups (cl_dag cl) ->
      M ∖ {[f]} <> ∅ -> is_Some (cl_handles cl !! f) -> ok_file (cl_dag cl) c f (s_log s) ->
      istep (Cfg L P s) (Cfg L P (upd_client c (set_missing (<[g := M ∖ {[f]}]> (cl_missing cl)) cl) s))
  | is_assign L P s w en q cl gr keys :
      s_workers s !! w = Some None -> pop_max (s_queue s) = Some (en, q) ->
      s_clients s !! en_client en = Some cl -> (en_group en, gr) ∈ d_groups (cl_dag cl) ->
      (forall f, f ∈ group_deps gr -> is_Some (cl_handles cl !! f)) ->
      (forall f k, keys !! f = Some k <-> f ∈ group_deps gr /\ cl_handles cl !! f = Some k) ->
      istep (Cfg L P s) (Cfg L P (assign_state w en q cl gr keys s))
  | is_hit L P s en q cl gr :
      s_queue s = en :: q -> s_clients s !! en_client en = Some cl ->
      (en_group en, gr) ∈ d_groups (cl_dag cl) -> cache_allowed (cl_dag cl) gr ->
      istep (Cfg L P s) (Cfg ((en_client en, en_group en) :: L) P (hit_state en q cl s))
  | is_complete_cached L P s c cl g gr results outs :
      s_clients s !! c = Some cl -> (g, gr) ∈ d_groups (cl_dag cl) ->
      length results = length (g_execs gr) ->
      (forall f, f ∈ group_outputs gr -> is_Some (outs !! f)) ->
      (forall r, r ∈ results -> res_was_cached r = true) ->
      istep (Cfg ((c, g) :: L) P s) (Cfg L (map (pair c) (group_outputs gr) ++ P) (complete c cl gr results outs true s))
  | is_perm L L' P s : L ≡ₚ L' -> istep (Cfg L P s) (Cfg L' P s).

(** ** Static data *)
Definition static (cl : client) := (cl_dag cl, cl_cb cl, cl_input_of cl).
(** [grows s s']: same clients, same static data, at least the same handles. *)
Definition grows (s s' : state) : Prop := forall c,
  match s_clients s !! c, s_clients s' !! c with
  | Some cl, Some cl' => static cl' = static cl /\ forall f, is_Some (cl_handles cl !! f) -> is_Some (cl_handles cl' !! f)
  | None, None => True
  | _, _ => False
  end.
Lemma grows_refl_clients s s' : s_clients s' = s_clients s -> grows s s'.
Proof. intros H c. rewrite H. destruct (s_clients s !! c); naive_solver. Qed.
Lemma grows_upd s s' c cl cl' :
  s_clients s !! c = Some cl -> s_clients s' = <[c := cl']> (s_clients s) ->
  static cl' = static cl -> (forall f, is_Some (cl_handles cl !! f) -> is_Some (cl_handles cl' !! f)) ->
  grows s s'.
Proof.
  intros Hc Hs' Hst Hh c0. rewrite Hs'. destruct (decide (c = c0)) as [<-|Hne].
  - rewrite lookup_insert, Hc. done.
  - rewrite lookup_insert_ne by done. destruct (s_clients s !! c0); naive_solver.
Qed.
Lemma grows_refl s : grows s s.
Proof. by apply grows_refl_clients. Qed.
Lemma grows_trans s1 s2 s3 : grows s1 s2 -> grows s2 s3 -> grows s1 s3.
Proof.
  intros H1 H2 c. specialize (H1 c). specialize (H2 c).
  destruct (s_clients s1 !! c), (s_clients s2 !! c), (s_clients s3 !! c); try done.
  destruct H1 as [E1 H1], H2 as [E2 H2]. split; [congruence|auto].
Qed.

Lemma outs_union_handles {A} (m1 m2 : gmap positive A) f : is_Some (m2 !! f) -> is_Some ((m1 ∪ m2) !! f).
Proof. intros [x Hx]. rewrite lookup_union_is_Some. right. eauto. Qed.

Lemma istep_grows x x' : istep x x' -> grows (x_s x) (x_s x').
Proof.
  intros Hst. destruct Hst; simpl; try (by apply grows_refl_clients);
  try (eapply grows_upd; [eassumption|reflexivity|reflexivity|done]).
  eapply grows_upd; [eassumption|reflexivity|reflexivity|]. simpl. intros f. apply outs_union_handles.
Qed.
Lemma isteps_grows x x' : rtc istep x x' -> grows (x_s x) (x_s x').
Proof. induction 1; [apply grows_refl|]. eapply grows_trans; [by apply istep_grows|done]. Qed.

Lemma grows_fwd s s' c cl : grows s s' -> s_clients s !! c = Some cl ->
  exists cl', s_clients s' !! c = Some cl' /\ static cl' = static cl /\
    forall f, is_Some (cl_handles cl !! f) -> is_Some (cl_handles cl' !! f).
Proof. intros H Hc. specialize (H c). rewrite Hc in H. destruct (s_clients s' !! c) as [cl'|]; [|done]. exists cl'. by destruct H. Qed.
Lemma grows_bwd s s' c cl' : grows s s' -> s_clients s' !! c = Some cl' ->
  exists cl, s_clients s !! c = Some cl /\ static cl' = static cl /\
    forall f, is_Some (cl_handles cl !! f) -> is_Some (cl_handles cl' !! f).
Proof. intros H Hc. specialize (H c). rewrite Hc in H. destruct (s_clients s !! c) as [cl|]; [|done]. exists cl. by destruct H. Qed.
Lemma static_dag cl cl' : static cl' = static cl -> cl_dag cl' = cl_dag cl.
Proof. unfold static. congruence. Qed.

(** ** The core invariant: no lookup can fail *)
Definition io_ok (cl : client) : Prop := forall f g,
  (exists gs, cl_input_of cl !! f = Some gs /\ g ∈ gs) <->
  exists gr, (g, gr) ∈ d_groups (cl_dag cl) /\ f ∈ group_deps gr.
Definition wait_ok (cl : client) : Prop := forall g M, cl_missing cl !! g = Some M ->
  exists gr, (g, gr) ∈ d_groups (cl_dag cl) /\ M <> ∅ /\ (forall f, f ∈ M -> f ∈ group_deps gr) /\
    (forall f, f ∈ group_deps gr -> f ∉ M -> is_Some (cl_handles cl !! f)).
Definition has_handles (cl : client) (gr : group) : Prop :=
  forall f, f ∈ group_deps gr -> is_Some (cl_handles cl !! f).
Definition item_ok (s : state) (c : client_uuid) (g : group_uuid) : Prop :=
  forall cl, s_clients s !! c = Some cl -> exists gr, (g, gr) ∈ d_groups (cl_dag cl) /\ has_handles cl gr.

Record core (x : cfg) : Prop := {
  co_dag : forall c cl, s_clients (x_s x) !! c = Some cl -> valid_dag (cl_dag cl);
  co_io : forall c cl, s_clients (x_s x) !! c = Some cl -> io_ok cl;
  co_wait : forall c cl, s_clients (x_s x) !! c = Some cl -> wait_ok cl;
  co_queue : forall en, en ∈ s_queue (x_s x) -> is_Some (s_clients (x_s x) !! en_client en) /\ item_ok (x_s x) (en_client en) (en_group en);
  co_jobs : forall w c g, working (x_s x) w c g -> item_ok (x_s x) c g;
  co_limbo : forall c g, (c, g) ∈ x_l x -> is_Some (s_clients (x_s x) !! c) /\ item_ok (x_s x) c g
}.

Lemma item_ok_grows s s' c g : grows s s' -> item_ok s c g -> item_ok s' c g.
Proof.
  intros Hg Hi cl' Hcl'. destruct (grows_bwd _ _ _ _ Hg Hcl') as (cl&Hcl&Hst&Hh).
  destruct (Hi cl Hcl) as (gr&Hgr&Hd). exists gr. rewrite (static_dag _ _ Hst). split; [done|].
  intros f Hf. by apply Hh, Hd.
Qed.
Lemma is_Some_grows s s' c : grows s s' -> is_Some (s_clients s !! c) -> is_Some (s_clients s' !! c).
Proof. intros Hg [cl Hcl]. destruct (grows_fwd _ _ _ _ Hg Hcl) as (cl'&?&_). eauto. Qed.
Lemma io_ok_static cl cl' : static cl' = static cl -> io_ok cl -> io_ok cl'.
Proof. unfold static, io_ok. intros [= -> _ ->]. done. Qed.

Lemma pop_max_perm q en r : pop_max q = Some (en, r) -> q ≡ₚ en :: r.
Proof.
  revert en r; induction q as [|x q IH]; intros en r; simpl; [done|].
  destruct (pop_max q) as [[m r']|] eqn:E.
  - specialize (IH m r' eq_refl). destruct (entry_le x m); intros [= <- <-]; rewrite IH; [|done].
    apply Permutation_swap.
  - intros [= <- <-]. destruct q as [|y q]; [done|]. exfalso. simpl in E.
    destruct (pop_max q) as [[? ?]|]; [destruct (entry_le y e)|]; done.
Qed.
Lemma pop_max_None q : pop_max q = None -> q = [].
Proof. destruct q as [|x q]; simpl; [done|]. destruct (pop_max q) as [[m r]|]; [destruct (entry_le x m)|]; done. Qed.

Lemma groups_dec d g gr : valid_dag d -> alookup g (d_groups d) = Some gr <-> (g, gr) ∈ d_groups d.
Proof. intros [(_&Hk&_) _]. split; [apply alookup_Some|by apply alookup_in]. Qed.

(** A generic lemma: the client [c] is updated from [cl] to [cl'], [x'] has possibly more items. *)
Lemma core_upd x x' c cl cl' :
  core x -> s_clients (x_s x) !! c = Some cl -> s_clients (x_s x') = <[c := cl']> (s_clients (x_s x)) ->
  static cl' = static cl -> (forall f, is_Some (cl_handles cl !! f) -> is_Some (cl_handles cl' !! f)) ->
  wait_ok cl' ->
  (forall en, en ∈ s_queue (x_s x') -> en ∈ s_queue (x_s x) \/ (en_client en = c /\ item_ok (x_s x') c (en_group en))) ->
  (forall w c0 g, working (x_s x') w c0 g -> working (x_s x) w c0 g \/ (c0 = c /\ item_ok (x_s x') c g)) ->
  (forall c0 g, (c0, g) ∈ x_l x' -> (c0, g) ∈ x_l x \/ (c0 = c /\ item_ok (x_s x') c g)) ->
  core x'.
Proof.
  intros [H1 H2 H3 H4 H5 H6] Hc Hs' Hst Hh Hw Hq Hj Hl.
  assert (Hg : grows (x_s x) (x_s x')) by (by eapply grows_upd).
  assert (Hc' : is_Some (s_clients (x_s x') !! c)) by (rewrite Hs', lookup_insert; eauto).
  constructor.
  - intros c0 cl0 Hc0. destruct (grows_bwd _ _ _ _ Hg Hc0) as (cl1&Hcl1&Hst1&_).
    rewrite (static_dag _ _ Hst1). eauto.
  - intros c0 cl0 Hc0. destruct (grows_bwd _ _ _ _ Hg Hc0) as (cl1&Hcl1&Hst1&_).
    eapply io_ok_static; eauto.
  - intros c0 cl0. rewrite Hs'. destruct (decide (c = c0)) as [<-|Hne].
    + rewrite lookup_insert. by intros [= <-].
    + rewrite lookup_insert_ne by done. eauto.
  - intros en Hen. destruct (Hq en Hen) as [Hin|[-> ?]]; [|done]. destruct (H4 en Hin).
    split; [by eapply is_Some_grows|by eapply item_ok_grows].
  - intros w c0 g Hwk. destruct (Hj w c0 g Hwk) as [Hin|[-> ?]]; [|done]. eapply item_ok_grows; eauto.
  - intros c0 g Hin. destruct (Hl c0 g Hin) as [Hin'|[-> ?]]; [|done]. destruct (H6 c0 g Hin').
    split; [by eapply is_Some_grows|by eapply item_ok_grows].
Qed.
(** The clients do not change and there are no more items. *)
Lemma core_sub x x' :
  core x -> s_clients (x_s x') = s_clients (x_s x) ->
  (forall en, en ∈ s_queue (x_s x') -> en ∈ s_queue (x_s x)) ->
  (forall w c g, working (x_s x') w c g -> working (x_s x) w c g) ->
  (forall cg, cg ∈ x_l x' -> cg ∈ x_l x) -> core x'.
Proof.
  intros [H1 H2 H3 H4 H5 H6] Hs' Hq Hj Hl.
  assert (Hg : grows (x_s x) (x_s x')) by (by apply grows_refl_clients).
  constructor; try (rewrite Hs'; done).
  - intros en Hen. destruct (H4 en (Hq en Hen)). split; [by eapply is_Some_grows|by eapply item_ok_grows].
  - intros w c g Hw. eapply item_ok_grows; eauto.
  - intros c g Hin. destruct (H6 c g (Hl _ Hin)). split; [by eapply is_Some_grows|by eapply item_ok_grows].
Qed.

Lemma wait_ok_delete cl cl' g : wait_ok cl -> static cl' = static cl -> cl_handles cl' = cl_handles cl ->
  cl_missing cl' = delete g (cl_missing cl) -> wait_ok cl'.
Proof.
  intros Hw Hst Hh Hm g0 M. rewrite Hm, lookup_delete_Some. intros [_ Hl]. apply Hw in Hl.
  by rewrite Hh, (static_dag _ _ Hst).
Qed.
Lemma wait_ok_same cl cl' : wait_ok cl -> static cl' = static cl ->
  (forall f, is_Some (cl_handles cl !! f) -> is_Some (cl_handles cl' !! f)) ->
  cl_missing cl' = cl_missing cl -> wait_ok cl'.
Proof.
  intros Hw Hst Hh Hm g0 M. rewrite Hm. intros Hl. apply Hw in Hl as (gr&?&?&?&?).
  rewrite (static_dag _ _ Hst). exists gr. eauto 8.
Qed.

Lemma istep_core x x' : core x -> istep x x' -> core x'.
Proof.
  intros Hc Hst. destruct Hst as [L P s|L P s q Hq|L P P' s Hp|L P c f s Hd|L P s c cl f k ok Hcl Hf Hk Hok
    |L P s c cl g gr M f Hcl HM Hgr Hf Hb|L P s c cl g gr M f Hcl HM Hgr HMf Hh Hok|L P s c cl g gr M f Hcl HM Hgr HMf Hh Hok
    |L P s w en q cl gr keys Hw Hpop Hcl Hgr Hh Hkeys|L P s en q cl gr Hq Hcl Hgr Hca|L P s c cl g gr results outs Hcl Hgr Hlen Houts Hrc
    |L L' P s Hperm].
  - eapply core_sub; eauto.
  - eapply core_sub; eauto. simpl. intros en. by rewrite Hq.
  - eapply core_sub; eauto.
  - eapply core_sub; eauto.
  - eapply core_sub; eauto.
  - eapply (core_upd _ _ c cl); [done|done|reflexivity|reflexivity|done| | | |]; simpl; auto.
    eapply wait_ok_delete; [by eapply (co_wait _ Hc)|done|done|reflexivity].
  - eapply (core_upd _ _ c cl); [done|done|reflexivity|reflexivity|done| | | |]; simpl; auto.
    + eapply wait_ok_delete; [by eapply (co_wait _ Hc)|done|done|reflexivity].
    + intros en Hen. apply elem_of_cons in Hen as [->|Hen]; [right|by left]. simpl. split; [done|].
      intros cl'. simpl. rewrite lookup_insert. intros [= <-]. simpl. exists gr. split; [done|].
      intros f' Hf'. simpl. destruct (decide (f' ∈ M)) as [Hin|Hnin].
      * assert (f' = f) as -> by set_solver. done.
      * destruct (co_wait _ Hc c cl Hcl g M HM) as (gr'&Hgr'&_&_&Hx).
        assert (gr = gr') as <-; [|by apply Hx].
        eapply groups_inj; [|exact Hgr|exact Hgr']. by destruct (co_dag _ Hc c cl Hcl) as [(_&?&_) _].
  - eapply (core_upd _ _ c cl); [done|done|reflexivity|reflexivity|done| | | |]; simpl; auto.
    intros g0 M0. simpl. destruct (decide (g = g0)) as [<-|Hne].
    + rewrite lookup_insert. intros [= <-].
      destruct (co_wait _ Hc c cl Hcl g M HM) as (gr'&Hgr'&_&Hsub&Hx). exists gr'.
      split; [done|]. split; [done|]. split; [set_solver|]. intros f' Hf' Hn.
      destruct (decide (f' = f)) as [->|]; [done|]. apply Hx; [done|]. set_solver.
    + rewrite lookup_insert_ne by done. apply (co_wait _ Hc c cl Hcl g0).
  - eapply (core_upd _ _ (en_client en) cl); [done|done|reflexivity|reflexivity|done| | | |]; simpl; auto.
    + eapply wait_ok_same; [by eapply (co_wait _ Hc)|done|done|reflexivity].
    + intros en' Hen'. left. rewrite (pop_max_perm _ _ _ Hpop). by right.
    + intros w' c0 g0 Hwk. unfold working in Hwk |- *. simpl in Hwk. destruct (decide (w = w')) as [<-|Hne].
      * rewrite lookup_insert in Hwk. injection Hwk as <- <-. right. split; [done|].
        intros cl'. simpl. rewrite lookup_insert. intros [= <-]. simpl. eauto.
      * rewrite lookup_insert_ne in Hwk by done. by left.
  - eapply (core_upd _ _ (en_client en) cl); [done|done|reflexivity|reflexivity|done| | | |]; simpl; auto.
    + eapply wait_ok_same; [by eapply (co_wait _ Hc)|done|done|reflexivity].
    + intros en' Hen'. left. rewrite Hq. by right.
    + intros c0 g0 Hin. apply elem_of_cons in Hin as [[= -> ->]|Hin]; [right|by left]. split; [done|].
      assert (Hi : item_ok s (en_client en) (en_group en)).
      { apply (co_queue _ Hc). simpl. rewrite Hq. by left. }
      eapply item_ok_grows; [|exact Hi]. eapply grows_upd; [done|reflexivity|reflexivity|done].
  - eapply (core_upd _ _ c cl); [done|done|reflexivity|reflexivity| | | | |]; simpl; auto.
    + intros f. apply outs_union_handles.
    + eapply wait_ok_same; [by eapply (co_wait _ Hc)|done| |reflexivity]. simpl. intros f. apply outs_union_handles.
    + intros c0 g0 Hin. left. by right.
  - eapply core_sub; eauto. simpl. intros cg. by rewrite Hperm.
Qed.
Lemma isteps_core x x' : core x -> rtc istep x x' -> core x'.
Proof. intros Hc. induction 1; [done|]. eauto using istep_core. Qed.

(** ** The measure *)
Definition missing_total (m : gmap client_uuid client) : nat :=
  map_fold (fun _ cl n => size (cl_missing cl) + n) 0 m.
Lemma missing_total_insert m c cl cl' : m !! c = Some cl ->
  missing_total (<[c := cl']> m) + size (cl_missing cl) = missing_total m + size (cl_missing cl').
Proof.
  intros Hc. unfold missing_total.
  rewrite <- (insert_delete_insert m). rewrite map_fold_insert_L; [|intros; lia|by rewrite lookup_delete].
  rewrite <- (insert_delete m c cl Hc) at 2. rewrite map_fold_insert_L; [|intros; lia|by rewrite lookup_delete]. lia.
Qed.
Lemma mu_upd s s' c cl cl' : s_clients s !! c = Some cl -> s_clients s' = <[c := cl']> (s_clients s) ->
  length (s_queue s) + size (cl_missing cl) + mu s' = length (s_queue s') + size (cl_missing cl') + mu s.
Proof.
  intros Hc Hs. unfold mu. fold (missing_total (s_clients s)). fold (missing_total (s_clients s')).
  rewrite Hs. pose proof (missing_total_insert (s_clients s) c cl cl' Hc). lia.
Qed.
Lemma mu_same s s' : s_clients s' = s_clients s -> length (s_queue s') = length (s_queue s) -> mu s' = mu s.
Proof. unfold mu. intros -> ->. done. Qed.
Lemma size_delete_missing {A} (m : gmap positive A) g x : m !! g = Some x -> S (size (delete g m)) = size m.
Proof. intros H. rewrite <- (insert_delete m g x H) at 2. rewrite map_size_insert_None by apply lookup_delete. done. Qed.

Lemma istep_mu_both x x' : istep x x' ->
  mu (x_s x') <= mu (x_s x) /\ length (x_l x') + mu (x_s x') <= length (x_l x) + mu (x_s x).
Proof.
  intros Hst. destruct Hst; simpl; try done; try (by (split; rewrite (mu_same s))).
  - rewrite (mu_same s); [lia|done|]. simpl. by rewrite H.
  - pose proof (mu_upd s (skip_state c cl g gr s) c cl _ H eq_refl). simpl in *.
    pose proof (size_delete_missing _ _ _ H0). lia.
  - pose proof (mu_upd s (enable_state c cl g gr s) c cl _ H eq_refl). simpl in *.
    pose proof (size_delete_missing _ _ _ H0). lia.
  - pose proof (mu_upd s (upd_client c (set_missing (<[g:=M ∖ {[f]}]> (cl_missing cl)) cl) s) c cl _ H eq_refl).
    simpl in *. rewrite map_size_insert_Some in H5 by eauto. lia.
  - pose proof (mu_upd s (assign_state w en q cl gr keys s) _ cl _ H1 eq_refl). simpl in *.
    apply pop_max_perm, Permutation_length in H0. simpl in H0. lia.
  - pose proof (mu_upd s (hit_state en q cl s) _ cl _ H0 eq_refl) as Hu. simpl in Hu. rewrite H in Hu. simpl in Hu. lia.
  - pose proof (mu_upd s (complete c cl gr results outs true s) _ cl _ H eq_refl). simpl in *. lia.
  - rewrite H. lia.
Qed.
Lemma istep_mu x x' : istep x x' -> mu (x_s x') <= mu (x_s x).
Proof. intros H. by apply istep_mu_both. Qed.
Lemma isteps_mu x x' : rtc istep x x' -> mu (x_s x') <= mu (x_s x).
Proof. induction 1; [done|]. etrans; [done|by apply istep_mu]. Qed.
Lemma isteps_mu_L x x' : rtc istep x x' -> length (x_l x') + mu (x_s x') <= length (x_l x) + mu (x_s x).
Proof. induction 1; [done|]. etrans; [done|by apply istep_mu_both]. Qed.

(** The trace only grows. *)
Lemma istep_log x x' : istep x x' -> exists l, s_log (x_s x') = s_log (x_s x) ++ l.
Proof. intros Hst. destruct Hst; simpl; eauto; exists []; by rewrite app_nil_r. Qed.
Lemma isteps_log x x' : rtc istep x x' -> exists l, s_log (x_s x') = s_log (x_s x) ++ l.
Proof.
  induction 1 as [|x y z H1 _ [l IH]]; [exists []; by rewrite app_nil_r|].
  destruct (istep_log _ _ H1) as [l0 Hl]. exists (l0 ++ l). by rewrite IH, Hl, app_assoc.
Qed.
