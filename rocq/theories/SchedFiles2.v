(** Preservation of the file invariants: the positive part. *)
From Verif Require Import SchedSpec SchedSteps SchedWalk SchedExt SchedReach SchedView SchedView2 SchedFiles CheckDagProofs CheckDagProofs2.
Local Arguments mu : simpl never.

Record pos (x : cfg) : Prop := {
  po_wait : forall c cl g M gr f, s_clients (x_s x) !! c = Some cl -> cl_missing cl !! g = Some M ->
    (g, gr) ∈ d_groups (cl_dag cl) -> f ∈ group_deps gr -> f ∉ M -> ok_file (cl_dag cl) c f (s_log (x_s x));
  po_item : forall c cl g, s_clients (x_s x) !! c = Some cl -> item x c g -> deps_ok cl c g (s_log (x_s x));
  po_handle : forall c cl f k, s_clients (x_s x) !! c = Some cl -> cl_handles cl !! f = Some k -> provenance c f k (s_log (x_s x));
  po_job : forall w c g, working (x_s x) w c g -> exists gr keys d cb, EJob w c gr keys ∈ s_log (x_s x) /\ g_uuid gr = g /\
    ERecv (EvaluateDAG c d cb) ∈ s_log (x_s x) /\ (g, gr) ∈ d_groups d;
  po_limbo : forall c cl g gr, (c, g) ∈ x_l x -> s_clients (x_s x) !! c = Some cl -> (g, gr) ∈ d_groups (cl_dag cl) ->
    cache_allowed (cl_dag cl) gr
}.

Lemma job_mono w c g log l :
  (exists gr keys d cb, EJob w c gr keys ∈ log /\ g_uuid gr = g /\ ERecv (EvaluateDAG c d cb) ∈ log /\ (g, gr) ∈ d_groups d) ->
  exists gr keys d cb, EJob w c gr keys ∈ log ++ l /\ g_uuid gr = g /\ ERecv (EvaluateDAG c d cb) ∈ log ++ l /\ (g, gr) ∈ d_groups d.
Proof. intros (gr&keys&d&cb&?&?&?&?). exists gr, keys, d, cb. rewrite !elem_of_app. auto. Qed.

Lemma pos_sub x x' l : pos x -> s_log (x_s x') = s_log (x_s x) ++ l ->
  (forall c cl, s_clients (x_s x') !! c = Some cl -> s_clients (x_s x) !! c = Some cl) ->
  (forall c g, item x' c g -> item x c g) -> (forall w c g, working (x_s x') w c g -> working (x_s x) w c g) ->
  (forall cg, cg ∈ x_l x' -> cg ∈ x_l x) -> pos x'.
Proof.
  intros [H1 H2 H3 H4 H5] Hl Hc Hi Hw HL. constructor; rewrite ?Hl.
  - intros. eapply ok_file_mono. eauto.
  - intros c cl g Hcl Hit. eapply deps_ok_mono; [done|]. eauto.
  - intros. eapply provenance_mono. eauto.
  - intros w c g Hwk. apply job_mono. eauto.
  - eauto.
Qed.
(** One client changes. *)
Lemma pos_upd x x' l c cl cl' : pos x -> s_log (x_s x') = s_log (x_s x) ++ l ->
  s_clients (x_s x) !! c = Some cl -> s_clients (x_s x') = <[c := cl']> (s_clients (x_s x)) -> static cl' = static cl ->
  (forall g M gr f, cl_missing cl' !! g = Some M -> (g, gr) ∈ d_groups (cl_dag cl) -> f ∈ group_deps gr -> f ∉ M ->
     ok_file (cl_dag cl) c f (s_log (x_s x) ++ l)) ->
  (forall f k, cl_handles cl' !! f = Some k -> cl_handles cl !! f = Some k \/ provenance c f k (s_log (x_s x) ++ l)) ->
  (forall c0 g, item x' c0 g -> item x c0 g \/ (c0 = c /\ deps_ok cl c g (s_log (x_s x) ++ l))) ->
  (forall w c0 g, working (x_s x') w c0 g -> working (x_s x) w c0 g \/
     exists gr keys d cb, EJob w c0 gr keys ∈ s_log (x_s x) ++ l /\ g_uuid gr = g /\
       ERecv (EvaluateDAG c0 d cb) ∈ s_log (x_s x) ++ l /\ (g, gr) ∈ d_groups d) ->
  (forall c0 g gr, (c0, g) ∈ x_l x' -> (c0, g) ∈ x_l x \/ (c0 = c /\ ((g, gr) ∈ d_groups (cl_dag cl) -> cache_allowed (cl_dag cl) gr))) ->
  pos x'.
Proof.
  intros [H1 H2 H3 H4 H5] Hl Hc Hc' Hst Hwait Hhand Hitem Hjob Hlim. apply static_dag in Hst as Hd.
  constructor; rewrite ?Hl, ?Hc'.
  - intros c0 cl0 g M gr f Hcl0. destruct (upd_cases _ _ _ _ _ _ Hc Hcl0) as [[-> ->]|[Hne Hcl0']].
    + rewrite Hd. eauto.
    + intros. eapply ok_file_mono. eauto.
  - intros c0 cl0 g Hcl0 Hit. destruct (upd_cases _ _ _ _ _ _ Hc Hcl0) as [[-> ->]|[Hne Hcl0']].
    + destruct (Hitem _ _ Hit) as [Hit'|[_ Hd']].
      * eapply deps_ok_mono; [exact Hd|]. eauto.
      * unfold deps_ok in *. rewrite Hd. done.
    + destruct (Hitem _ _ Hit) as [Hit'|[? _]]; [|done]. eapply deps_ok_mono; [done|]. eauto.
  - intros c0 cl0 f k Hcl0 Hk. destruct (upd_cases _ _ _ _ _ _ Hc Hcl0) as [[-> ->]|[Hne Hcl0']].
    + destruct (Hhand f k Hk) as [Hk'|?]; [|done]. eapply provenance_mono. eauto.
    + eapply provenance_mono. eauto.
  - intros w c0 g Hwk. destruct (Hjob _ _ _ Hwk) as [Hwk'|?]; [|done]. apply job_mono. eauto.
  - intros c0 cl0 g gr Hin Hcl0 Hgr. destruct (upd_cases _ _ _ _ _ _ Hc Hcl0) as [[-> ->]|[Hne Hcl0']].
    + rewrite Hd in Hgr |- *. destruct (Hlim _ _ gr Hin) as [?|[_ ?]]; [eauto|auto].
    + destruct (Hlim _ _ gr Hin) as [?|[? _]]; [eauto|done].
Qed.

Lemma item_sub x x' : (forall en, en ∈ s_queue (x_s x') -> en ∈ s_queue (x_s x)) ->
  (forall w c g, working (x_s x') w c g -> working (x_s x) w c g) ->
  (forall cg, cg ∈ x_l x' -> cg ∈ x_l x) -> forall c g, item x' c g -> item x c g.
Proof.
  intros Hq Hw HL c g [(en&?&?&?)|[?|(w&?)]]; [left; exists en; auto|right; left; auto|right; right; eauto].
Qed.

Lemma istep_pos x x' : base x -> core x -> pos x -> istep x x' -> pos x'.
Proof.
  intros Hb Hcore Hp Hst. destruct Hst as [L P s|L P s q Hq|L P P' s Hpp|L P c f s Hd|L P s c cl f k ok Hcl Hf Hk Hok
    |L P s c cl g gr M f Hcl HM Hgr Hf Hbad|L P s c cl g gr M f Hcl HM Hgr HMf Hh Hok|L P s c cl g gr M f Hcl HM Hgr HMf Hh Hok
    |L P s w en q cl gr keys Hw Hpop Hcl Hgr Hh Hkeys|L P s en q cl gr Hq Hcl Hgr Hca|L P s c cl g gr results outs Hcl Hgr Hlen Houts Hrc
    |L L' P s Hperm].
  - apply (pos_sub _ _ [] Hp); simpl; auto. by rewrite app_nil_r.
  - apply (pos_sub _ _ [] Hp); simpl; auto; [by rewrite app_nil_r|]. apply item_sub; simpl; auto. intros en. by rewrite Hq.
  - apply (pos_sub _ _ [] Hp); simpl; auto. by rewrite app_nil_r.
  - apply (pos_sub _ _ [] Hp); simpl; auto. by rewrite app_nil_r.
  - eapply (pos_sub _ _ _ Hp); simpl; eauto.
  - eapply (pos_upd _ _ _ c cl _ Hp); simpl; [reflexivity|done|reflexivity|done| | | | |]; auto.
    intros g0 M0 gr0 f0 HM0. simpl in HM0. apply lookup_delete_Some in HM0 as [_ HM0]. intros. apply ok_file_mono. by eapply (po_wait _ Hp).
  - eapply (pos_upd _ _ [] c cl _ Hp); simpl; [by rewrite app_nil_r|done|reflexivity|done| | | | |]; rewrite ?app_nil_r; auto.
    + intros g0 M0 gr0 f0 HM0. simpl in HM0. apply lookup_delete_Some in HM0 as [_ HM0]. intros. by eapply (po_wait _ Hp).
    + intros c0 g0 [(en&Hin&He1&He2)|[?|(w&?)]]; [|left; right; left; done|left; right; right; eauto].
      apply elem_of_cons in Hin as [->|Hin]; [|left; left; exists en; auto]. simpl in *. subst c0 g0. right. split; [done|].
      intros gr' f' Hgr' Hf'. destruct (decide (f' ∈ M)) as [HinM|]; [|by eapply (po_wait _ Hp)].
      assert (f' = f) as -> by set_solver. done.
  - eapply (pos_upd _ _ [] c cl _ Hp); simpl; [by rewrite app_nil_r|done|reflexivity|done| | | | |]; rewrite ?app_nil_r; auto.
    intros g0 M0 gr0 f0 HM0 Hgr0 Hf0 HfM. simpl in HM0. destruct (decide (g0 = g)) as [->|Hne].
    + rewrite lookup_insert in HM0. injection HM0 as <-. destruct (decide (f0 ∈ M)) as [HinM|]; [|by eapply (po_wait _ Hp)].
      assert (f0 = f) as ->; [|done]. destruct (decide (f0 = f)) as [|Hn]; [done|]. exfalso. apply HfM. set_solver.
    + rewrite lookup_insert_ne in HM0 by done. by eapply (po_wait _ Hp).
  - assert (Hgu : g_uuid gr = en_group en). { destruct (co_dag _ Hcore _ cl Hcl) as [(_&_&Hk) _]. by apply Hk. }
    assert (Hien : item (Cfg L P s) (en_client en) (en_group en)).
    { left. exists en. split; [|done]. simpl. rewrite (pop_max_perm _ _ _ Hpop). left. }
    eapply (pos_upd _ _ _ (en_client en) cl _ Hp); simpl; [reflexivity|done|reflexivity|done| | | | |]; auto.
    + intros. apply ok_file_mono. by eapply (po_wait _ Hp).
    + intros c0 g0 [(en'&Hin&He1&He2)|[?|(w'&Hwk)]].
      * left. left. exists en'. split; [|done]. simpl. rewrite (pop_max_perm _ _ _ Hpop). by right.
      * left. right. by left.
      * unfold working in Hwk. simpl in Hwk. destruct (decide (w = w')) as [<-|Hne].
        -- rewrite lookup_insert in Hwk. injection Hwk as <- <-. by left.
        -- rewrite lookup_insert_ne in Hwk by done. left. right. right. by exists w'.
    + intros w' c0 g0 Hwk. unfold working in Hwk |- *. simpl in Hwk. destruct (decide (w = w')) as [<-|Hne].
      * rewrite lookup_insert in Hwk. injection Hwk as <- <-. right. exists gr, keys, (cl_dag cl), (cl_cb cl).
        rewrite !elem_of_app. split; [right; left|]. split; [done|]. split; [|done]. left. by apply (ba_client _ Hb).
      * rewrite lookup_insert_ne in Hwk by done. by left.
  - assert (Hien : item (Cfg L P s) (en_client en) (en_group en)).
    { left. exists en. split; [|done]. simpl. rewrite Hq. left. }
    eapply (pos_upd _ _ [] (en_client en) cl _ Hp); simpl; [by rewrite app_nil_r|done|reflexivity|done| | | | |]; rewrite ?app_nil_r; auto.
    + intros. by eapply (po_wait _ Hp).
    + intros c0 g0 [(en'&Hin&He1&He2)|[Hin|(w'&Hwk)]].
      * left. left. exists en'. split; [|done]. simpl. rewrite Hq. by right.
      * simpl in Hin. apply elem_of_cons in Hin as [[= -> ->]|Hin]; [by left|]. left. right. by left.
      * left. right. right. by exists w'.
    + intros c0 g0 gr0 Hin. apply elem_of_cons in Hin as [[= -> ->]|Hin]; [|by left]. right. split; [done|].
      intros Hgr0. assert (gr0 = gr) as ->; [|done]. destruct (co_dag _ Hcore _ cl Hcl) as [(_&Hnd&_) _]. by eapply groups_inj.
  - assert (Hgu : g_uuid gr = g). { destruct (co_dag _ Hcore _ cl Hcl) as [(_&_&Hk) _]. by apply Hk. }
    eapply (pos_upd _ _ _ c cl _ Hp); simpl; [reflexivity|done|reflexivity|done| | | | |]; auto.
    + intros. apply ok_file_mono. by eapply (po_wait _ Hp).
    + intros f k Hk. apply lookup_union_Some_raw in Hk as [Hk|[_ Hk]]; [|by left]. right. right.
      exists (g_uuid gr), true, results, outs. split; [|done]. rewrite elem_of_app. right. left.
    + intros c0 g0 [?|[Hin|?]]; [left; by left|left; right; left; simpl in *; by right|left; right; by right].
    + intros c0 g0 gr0 Hin. left. by right.
  - apply (pos_sub _ _ [] Hp); simpl; auto; [by rewrite app_nil_r| |]; [apply item_sub; simpl; auto|]; intros cg; by rewrite Hperm.
Qed.

Lemma xstep_pos x x' : base x -> core x -> pos x -> xstep x x' -> pos x'.
Proof.
  intros Hb Hcore Hp Hst.
  destruct Hst as [s m Hm Hm2|s c d cb cl q Hd Hf Hs|s c cl f k Hc|s w c cl g gr results outs Hr Hw Hc Hg Hlen Ho
    |s w c cl g gr Hr Hw Hc Hg|s w Hw|s w Hw|s c ws Hr Hpm|s c r w l Hr|s c cl Hc Hdone].
  - by eapply (pos_sub _ _ _ Hp).
  - destruct (submit_submitted _ _ _ _ _ _ Hd Hs) as [Hdd Hcb Hru Hha Hio Hre Hmi (new&Hq&Hen&Hcnt)].
    destruct (base_fresh _ c Hb Hf) as [Hnone Hnw]. simpl in Hnone, Hnw.
    destruct Hp as [H1 H2 H3 H4 H5]. simpl in *. constructor; simpl.
    + intros c0 cl0 g M gr f Hcl0 HM Hgr Hf0 HfM. destruct (decide (c0 = c)) as [->|Hne].
      * rewrite lookup_insert in Hcl0. injection Hcl0 as <-. apply Hmi in HM as (gr'&Hin&_&->). rewrite Hdd in Hgr.
        assert (gr' = gr) as ->. { destruct Hd as [(_&Hnd&_) _]. by eapply groups_inj. } set_solver.
      * rewrite lookup_insert_ne in Hcl0 by done. apply ok_file_mono. eauto.
    + intros c0 cl0 g Hcl0 Hit. destruct (decide (c0 = c)) as [->|Hne].
      * rewrite lookup_insert in Hcl0. injection Hcl0 as <-. intros gr f Hgr Hf0. rewrite Hdd in Hgr. exfalso.
        destruct Hit as [(en&Hin&He1&He2)|[Hin|(w&Hwk)]]; simpl in *.
        -- rewrite Hq in Hin. apply elem_of_app in Hin as [Hin|Hin].
           ++ destruct (Hen en Hin) as (_&gr'&Hgr'&He). rewrite He2 in Hgr'.
              assert (gr' = gr) as ->. { destruct Hd as [(_&Hnd&_) _]. by eapply groups_inj. }
              rewrite He in Hf0. by apply not_elem_of_nil in Hf0.
           ++ destruct (co_queue _ Hcore en Hin) as [[? ?] _]. simpl in *. congruence.
        -- by apply not_elem_of_nil in Hin.
        -- by apply Hnw in Hwk.
      * rewrite lookup_insert_ne in Hcl0 by done. eapply deps_ok_mono; [done|]. apply H2; [done|].
        destruct Hit as [(en&Hin&He1&He2)|[Hin|(w&Hwk)]]; simpl in *; [|by right; left|right; right; by exists w].
        left. exists en. split; [|done]. simpl. rewrite Hq in Hin. apply elem_of_app in Hin as [Hin|Hin]; [|done].
        destruct (Hen en Hin) as [? _]. congruence.
    + intros c0 cl0 f k Hcl0 Hk. destruct (decide (c0 = c)) as [->|Hne].
      * rewrite lookup_insert in Hcl0. injection Hcl0 as <-. by rewrite Hha, lookup_empty in Hk.
      * rewrite lookup_insert_ne in Hcl0 by done. apply provenance_mono. eauto.
    + intros w c0 g Hwk. apply job_mono. eauto.
    + intros c0 cl0 g gr Hin. by apply not_elem_of_nil in Hin.
  - eapply (pos_upd _ _ _ c cl _ Hp); simpl; [reflexivity|done|reflexivity|done| | | | |]; auto.
    + intros. apply ok_file_mono. by eapply (po_wait _ Hp).
    + intros f0 k0 Hk0. simpl in Hk0. destruct (decide (f0 = f)) as [->|Hne]; [|rewrite lookup_insert_ne in Hk0 by done; by left].
      rewrite lookup_insert in Hk0. injection Hk0 as <-. right. left. rewrite elem_of_app. right. left.
  - assert (Hgu : g_uuid gr = g). { destruct (co_dag _ Hcore _ cl Hc) as [(_&_&Hk) _]. by apply Hk. }
    eapply (pos_upd _ _ _ c cl _ Hp); simpl; [apply completed_log|done|apply completed_clients|done| | | | |]; auto.
    + intros. apply ok_file_mono. by eapply (po_wait _ Hp).
    + intros f k Hk. apply lookup_union_Some_raw in Hk as [Hk|[_ Hk]]; [|by left]. right. right.
      exists (g_uuid gr), false, results, outs. split; [|done]. rewrite elem_of_app. right. left.
    + intros c0 g0 [(en&Hin&He)|[Hin|(w'&Hwk)]]; simpl in *.
      * rewrite completed_queue in Hin. left. left. by exists en.
      * by apply not_elem_of_nil in Hin.
      * left. right. right. exists w'. unfold working in *. rewrite completed_workers in Hwk. by apply lookup_delete_Some in Hwk as [_ ?].
    + intros w' c0 g0 Hwk. left. unfold working in *. rewrite completed_workers in Hwk. by apply lookup_delete_Some in Hwk as [_ ?].
  - eapply (pos_upd _ _ _ c cl _ Hp); simpl; [reflexivity|done|reflexivity|done| | | | |]; auto.
    + intros. apply ok_file_mono. by eapply (po_wait _ Hp).
    + intros c0 g0 [(en&Hin&He1&He2)|[Hin|(w'&Hwk)]]; simpl in *.
      * apply elem_of_cons in Hin as [->|Hin]; [|left; left; by exists en]. simpl in *. subst. left. right. right. by exists w.
      * by apply not_elem_of_nil in Hin.
      * left. right. right. exists w'. unfold working in *. simpl in Hwk. by apply lookup_delete_Some in Hwk as [_ ?].
    + intros w' c0 g0 Hwk. left. unfold working in *. simpl in Hwk. by apply lookup_delete_Some in Hwk as [_ ?].
  - assert (Hwk : forall w' c g, working (set_workers (delete w (s_workers s)) s) w' c g -> working s w' c g)
      by (intros w' c g Hx; by apply working_delete in Hx as [? _]).
    apply (pos_sub _ _ [] Hp); simpl; auto; [by rewrite app_nil_r|]. by apply item_sub.
  - assert (Hwk : forall w' c g, working (set_workers (<[w := None]> (s_workers s)) s) w' c g -> working s w' c g).
    { intros w' c g Hx. unfold working in *. simpl in Hx. destruct (decide (w = w')) as [<-|Hne];
        [by rewrite lookup_insert in Hx|by rewrite lookup_insert_ne in Hx]. }
    apply (pos_sub _ _ [] Hp); simpl; auto; [by rewrite app_nil_r|]. by apply item_sub.
  - eapply (pos_sub _ _ _ Hp); simpl; [reflexivity| | | |]; auto.
    + intros c0 cl0 Hx. by apply lookup_delete_Some in Hx as [_ ?].
    + apply item_sub; simpl; auto. intros en Hin. by apply elem_of_list_filter in Hin as [_ ?].
  - by eapply (pos_sub _ _ _ Hp).
  - by eapply (pos_sub _ _ _ Hp).
Qed.
Lemma pos_init : pos (Cfg [] [] init_state).
Proof.
  constructor; simpl; intros; try (by rewrite lookup_empty in *); try (by eapply not_elem_of_nil);
    try (match goal with H : working _ _ _ _ |- _ => unfold working in H; simpl in H; by rewrite lookup_empty in H end).
Qed.
