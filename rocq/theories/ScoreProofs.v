(** * ScoreProofs: the score manager *)
From Verif Require Import ScoreSpec.

Section manager.
  Context (t : score_task) (order : list subtask_id).
  Hypothesis Hok : task_ok t order.
  Local Notation agg := (tk_aggregator t).

  Lemma info_in st info : (st, info) ∈ tk_subtasks t -> info_of t st = Some info.
  Proof. intros H. destruct Hok as (Hn & _). unfold info_of. by apply elem_of_list_to_map_1. Qed.
  Lemma in_info st info : info_of t st = Some info -> (st, info) ∈ tk_subtasks t.
  Proof. unfold info_of. apply elem_of_list_to_map_2. Qed.
  Lemma order_in st : st ∈ order <-> is_Some (info_of t st).
  Proof.
    destruct Hok as (_ & Ho & _). rewrite Ho, elem_of_list_fmap. split.
    - intros ([st' info] & -> & Hin). exists info. by apply info_in.
    - intros [info H]. exists (st, info). split; [done|]. by apply in_info.
  Qed.
  Lemma order_nodup : NoDup order.
  Proof. destruct Hok as (Hn & Ho & _). by rewrite Ho. Qed.

  (** The scores of the testcases, as in the map *)
  Definition holds (M : gmap testcase_id (option f64)) (l : arrivals) : Prop := forall tc, tc ∈ tk_testcases t -> M !! tc = Some (score_of l tc).
  Definition want (l : arrivals) (st : subtask_id) : option (f64 * f64) := info ← info_of t st; expected agg l info.
  Definition no_panic (l : arrivals) (st : subtask_id) : Prop :=
    forall info scores, info_of t st = Some info -> subtask_scores l info = Some scores -> is_Some (aggregate agg scores).

  Lemma mapM_testcases M l (tcs : list nat) : holds M l -> (forall tc, tc ∈ tcs -> tc ∈ tk_testcases t) ->
    exists ss, mapM (fun tc => M !! tc) tcs = Some ss /\ mapM id ss = mapM (score_of l) tcs.
  Proof.
    intros HM Hin. induction tcs as [|tc tcs IH]; [by exists []|].
    destruct IH as (ss & H1 & H2); [intros; apply Hin; by right|]. exists (score_of l tc :: ss). simpl. rewrite HM by (apply Hin; by left). rewrite H1. simpl.
    split; [done|]. rewrite H2. done.
  Qed.
  Lemma score_subtask_eq l sm st : holds (sm_testcases sm) l -> st ∈ order ->
    score_subtask t st sm =
    (info ← info_of t st;
     match subtask_scores l info with
     | None => Some (sm, [])
     | Some scores =>
       n ← aggregate agg scores;
       let sm' := ScoreManager (set_subtask st (f64_mul (st_max info) n) (sm_subtasks sm)) (sm_testcases sm) in
       Some (sm', SubtaskScored st (f64_mul (st_max info) n) n :: match mapM snd (sm_subtasks sm') with Some all => [TaskScored (fold_left f64_add all f64_zero)] | None => [] end)
     end).
  Proof.
    intros HM Hst. apply order_in in Hst as [info Hi]. unfold score_subtask. rewrite Hi. simpl.
    destruct (mapM_testcases _ _ (st_testcases info) HM) as (ss & -> & Hss).
    { intros tc Htc. destruct Hok as (_ & _ & H). eapply H; [by apply in_info|done]. }
    simpl. rewrite Hss. done.
  Qed.
  (** The state of the subtasks: [f] tells the score *)
  Definition view (f : subtask_id -> option f64) : list (subtask_id * option f64) := map (fun st => (st, f st)) order.
  Lemma set_view st v f : set_subtask st v (view f) = view (fun x => if decide (x = st) then Some v else f x).
  Proof.
    unfold set_subtask, view. rewrite map_map. apply map_ext. intros x. simpl. case_decide as H; [|done]. done.
  Qed.
  Lemma mapM_view f : mapM snd (view f) = mapM f order.
  Proof. unfold view. clear Hok. induction order as [|x l IH]; [done|]. simpl. destruct (f x); simpl; [|done]. by rewrite IH. Qed.
  Lemma mapM_None_in {A B} (f : A -> option B) l x : x ∈ l -> f x = None -> mapM f l = None.
  Proof. intros Hin Hf. destruct (mapM f l) as [ys|] eqn:E; [|done]. apply mapM_Some in E. apply elem_of_list_lookup in Hin as [i Hi].
    eapply Forall2_lookup_l in E; [|exact Hi]. destruct E as (y & _ & Hy). congruence. Qed.
  Lemma view_ext f g : (forall st, st ∈ order -> f st = g st) -> view f = view g.
  Proof. intros H. unfold view. apply map_ext_in. intros st Hst. rewrite H; [done|]. by apply elem_of_list_In. Qed.

  Lemma omap_subtask_cons x st s n l : omap (subtask_scored x) (SubtaskScored st s n :: l) = (if decide (st = x) then [(s, n)] else []) ++ omap (subtask_scored x) l.
  Proof. change (omap (subtask_scored x) (SubtaskScored st s n :: l)) with (match subtask_scored x (SubtaskScored st s n) with Some y => y :: omap (subtask_scored x) l | None => omap (subtask_scored x) l end). unfold subtask_scored at 1. by case_decide. Qed.
  Lemma omap_task_tail x (o : option (list f64)) : omap (subtask_scored x) (match o with Some all => [TaskScored (fold_left f64_add all f64_zero)] | None => [] end) = [].
  Proof. by destruct o. Qed.
  Lemma score_subtasks_spec l L sm sm' evs f : holds (sm_testcases sm) l -> sm_subtasks sm = view f ->
    NoDup L -> (forall st, st ∈ L -> st ∈ order /\ f st = None) ->
    score_subtasks t L sm = Some (sm', evs) ->
    sm_testcases sm' = sm_testcases sm /\
    sm_subtasks sm' = view (fun st => if decide (st ∈ L) then fst <$> want l st else f st) /\
    (forall st, omap (subtask_scored st) evs = if decide (st ∈ L) then option_list (want l st) else []) /\
    omap task_scored evs = match L, mapM snd (sm_subtasks sm') with _ :: _, Some all => [fold_left f64_add all f64_zero] | _, _ => [] end /\
    omap testcase_scored evs = [] /\
    (forall st, st ∈ L -> no_panic l st).
  Proof.
    intros HM Hf HL HLf. revert sm f evs HM Hf HLf. induction L as [|st L IH]; intros sm f evs HM Hf HLf H; simpl in H.
    - injection H as <- <-. split_and!; try done.
      intros st Hst. by apply elem_of_nil in Hst.
    - apply NoDup_cons in HL as [Hst HL]. destruct (HLf st ltac:(by left)) as [Ho Hn].
      rewrite (score_subtask_eq l) in H by done. destruct (info_of t st) as [info|] eqn:Ei; simpl in H; [|done].
      assert (want l st = expected agg l info) as Hw by (unfold want; by rewrite Ei).
      destruct (subtask_scores l info) as [scores|] eqn:Es.
      + destruct (aggregate agg scores) as [n|] eqn:Ea; simpl in H; [|done].
        set (s := f64_mul (st_max info) n) in *.
        assert (want l st = Some (s, n)) as Hw'. { rewrite Hw. unfold expected. rewrite Es. simpl. rewrite Ea. done. }
        set (f1 := fun x => if decide (x = st) then Some s else f x). rewrite Hf, set_view in H. fold f1 in H.
        destruct (score_subtasks t L (ScoreManager (view f1) (sm_testcases sm))) as [[sm2 evs2]|] eqn:E2; simpl in H; [|done]. simplify_eq.
        destruct (IH HL (ScoreManager (view f1) (sm_testcases sm)) f1 evs2 HM eq_refl) as (H1 & H2 & H3 & H4 & H5 & H6); [|done|].
        { intros x Hx. destruct (HLf x ltac:(by right)) as [? ?]. split; [done|]. unfold f1. rewrite decide_False; [done|]. intros ->. done. }
        assert (forall x, (if decide (x ∈ st :: L) then fst <$> want l x else f x) = (if decide (x ∈ L) then fst <$> want l x else f1 x)) as Hext.
        { intros x. unfold f1. destruct (decide (x = st)) as [->|Hne].
          - rewrite decide_True by by left. rewrite (decide_False (P := st ∈ L)) by done. by rewrite Hw'.
          - destruct (decide (x ∈ L)); [rewrite decide_True by (by right); done|rewrite decide_False; [done|]]. by intros [?|?]%elem_of_cons. }
        split_and!; [done| | | |simpl; rewrite omap_app, H5, app_nil_r; by destruct (mapM snd (view f1))|].
        * rewrite H2. apply view_ext. intros x _. by rewrite Hext.
        * intros x. rewrite omap_subtask_cons, omap_app, omap_task_tail, H3. destruct (decide (st = x)) as [<-|Hne].
          -- rewrite (decide_True (P := st ∈ st :: L)) by by left. rewrite Hw'. by rewrite decide_False by done.
          -- simpl. destruct (decide (x ∈ L)); [rewrite decide_True by (by right); done|rewrite decide_False; [done|]]. by intros [?|?]%elem_of_cons.
        * cbn. rewrite omap_app, H4, mapM_view. destruct L as [|st2 L].
          -- simpl in E2. simplify_eq. rewrite app_nil_r. simpl. rewrite mapM_view. by destruct (mapM f1 order).
          -- destruct (HLf st2 ltac:(by right; left)) as [Ho2 Hn2]. rewrite (mapM_None_in f1 order st2); [done..|]. unfold f1. rewrite decide_False; [done|].
             intros ->. apply Hst. by left.
        * intros x [->|Hx]%elem_of_cons; [|by apply H6]. intros info' scores' Hi Hs. rewrite Ei in Hi. injection Hi as <-. rewrite Es in Hs. injection Hs as <-. by rewrite Ea.
      + assert (want l st = None) as Hw'. { rewrite Hw. unfold expected. by rewrite Es. }
        simpl in H. destruct (score_subtasks t L sm) as [[sm2 evs2]|] eqn:E2; simpl in H; [|done]. simplify_eq.
        destruct (IH HL sm f evs HM Hf) as (H1 & H2 & H3 & H4 & H5 & H6); [|done|].
        { intros x Hx. apply HLf. by right. }
        assert (forall x, (if decide (x ∈ st :: L) then fst <$> want l x else f x) = (if decide (x ∈ L) then fst <$> want l x else f x)) as Hext.
        { intros x. destruct (decide (x = st)) as [->|Hne].
          - rewrite decide_True by by left. rewrite (decide_False (P := st ∈ L)) by done. by rewrite Hw', Hn.
          - destruct (decide (x ∈ L)); [rewrite decide_True by (by right); done|rewrite decide_False; [done|]]. by intros [?|?]%elem_of_cons. }
        split_and!; [done| | | |done|].
        * rewrite H2. apply view_ext. intros x _. by rewrite Hext.
        * intros x. rewrite H3. destruct (decide (x = st)) as [->|Hne].
          -- rewrite (decide_True (P := st ∈ st :: L)) by by left. rewrite decide_False by done. by rewrite Hw'.
          -- destruct (decide (x ∈ L)); [rewrite decide_True by (by right); done|rewrite decide_False; [done|]]. by intros [?|?]%elem_of_cons.
        * rewrite H4. destruct L as [|st2 L]; [|done]. simpl in E2. simplify_eq. rewrite Hf, mapM_view, (mapM_None_in f order st); done.
        * intros x [->|Hx]%elem_of_cons; [|by apply H6]. intros info' scores' Hi Hs. rewrite Ei in Hi. injection Hi as <-. by rewrite Es in Hs.
  Qed.

  (** The invariant: [evs] were sent after the scores [l] arrived. *)
  Record inv (l : arrivals) (sm : score_manager) (evs : list score_event) : Prop := {
    i_testcases : holds (sm_testcases sm) l;
    i_subtasks : sm_subtasks sm = view (fun st => fst <$> want l st);
    i_scored : forall st, st ∈ order -> omap (subtask_scored st) evs = option_list (want l st);
    i_task : omap task_scored evs = match order, mapM (fun st => fst <$> want l st) order with _ :: _, Some all => [fold_left f64_add all f64_zero] | _, _ => [] end;
    i_arrived : omap testcase_scored evs = l;
    i_no_panic : forall st, st ∈ order -> no_panic l st
  }.
  Lemma score_of_snoc l st tc v x : arrivals_ok (l ++ [(st, tc, v)]) -> score_of (l ++ [(st, tc, v)]) x = if decide (x = tc) then Some v else score_of l x.
  Proof.
    unfold arrivals_ok, score_of. rewrite !map_app. simpl. intros H. apply NoDup_app in H as (_ & Hd & _).
    assert (forall a : list (nat * f64), tc ∉ a.*1 -> list_to_map (M := gmap nat f64) (a ++ [(tc, v)]) = <[tc := v]> (list_to_map a)) as Hsnoc.
    { intros a. induction a as [|[y w] a IH]; intros Hn; [done|]. simpl in *. apply not_elem_of_cons in Hn as [Hy Hn]. rewrite IH by done. by rewrite insert_commute. }
    rewrite Hsnoc.
    - case_decide as Hx; [subst; by rewrite lookup_insert|by rewrite lookup_insert_ne].
    - intros Hin. apply (Hd tc); [|by left]. rewrite elem_of_list_fmap in Hin. destruct Hin as ([y w] & -> & Hin). apply elem_of_list_fmap in Hin as ([[a b] c] & [= -> ->] & Hin).
      apply elem_of_list_fmap. by exists (a, b, c).
  Qed.
  Lemma score_of_fresh l st tc v : arrivals_ok (l ++ [(st, tc, v)]) -> score_of l tc = None.
  Proof.
    unfold arrivals_ok, score_of. rewrite map_app. simpl. intros H. apply NoDup_app in H as (_ & Hd & _). apply not_elem_of_list_to_map_1.
    intros Hin. apply (Hd tc); [|by left]. rewrite elem_of_list_fmap in Hin. destruct Hin as ([y w] & -> & Hin). apply elem_of_list_fmap in Hin as ([[a b] c] & [= -> ->] & Hin).
    apply elem_of_list_fmap. by exists (a, b, c).
  Qed.
  Lemma subtask_scores_stable l st tc v info scores : arrivals_ok (l ++ [(st, tc, v)]) -> subtask_scores l info = Some scores -> subtask_scores (l ++ [(st, tc, v)]) info = Some scores.
  Proof.
    intros Ha. unfold subtask_scores. generalize (st_testcases info). intros tcs. revert scores. induction tcs as [|x tcs IH]; intros scores H; simpl in *; [done|].
    destruct (score_of l x) as [w|] eqn:Ex; simpl in H; [|done]. destruct (mapM (score_of l) tcs) as [ws|] eqn:Em; simpl in H; [|done]. simplify_eq.
    rewrite score_of_snoc by done. rewrite decide_False; [|intros ->; apply score_of_fresh in Ha; congruence]. rewrite Ex. simpl. rewrite (IH ws) by done. done.
  Qed.
  Lemma want_stable l st tc v x r : arrivals_ok (l ++ [(st, tc, v)]) -> want l x = Some r -> want (l ++ [(st, tc, v)]) x = Some r.
  Proof.
    intros Ha. unfold want, expected. destruct (info_of t x) as [info|]; simpl; [|done]. destruct (subtask_scores l info) as [scores|] eqn:Es; simpl; [|done].
    by rewrite (subtask_scores_stable _ _ _ _ _ _ Ha Es).
  Qed.
  Lemma pending_spec f : omap (fun x => match x.2 with None => Some x.1 | Some _ => None end) (view f) = filter (fun st => f st = None) order.
  Proof.
    unfold view. clear Hok. induction order as [|x l IH]; [done|]. rewrite filter_cons. cbn. destruct (f x) eqn:E; simpl.
    - exact IH.
    - f_equal. exact IH.
  Qed.
  Lemma score_inv l sm evs st tc v sm' evs' : inv l sm evs -> arrivals_ok (l ++ [(st, tc, v)]) -> score t st tc v sm = Some (sm', evs') ->
    inv (l ++ [(st, tc, v)]) sm' (evs ++ evs').
  Proof.
    intros [I1 I2 I3 I4 I5 I6] Ha H. set (l' := l ++ [(st, tc, v)]) in *. unfold score in H. simpl in H. rewrite I2, pending_spec in H.
    set (f := fun st => fst <$> want l st) in *. set (L := filter (fun st => f st = None) order) in *.
    set (sm1 := ScoreManager (view f) (<[tc := Some v]> (sm_testcases sm))) in *.
    assert ((score_subtasks t L sm1 ≫= (fun '(sm, evs) => Some (sm, TestcaseScored st tc v :: evs))) = Some (sm', evs')) as H' by exact H. clear H. rename H' into H.
    destruct (score_subtasks t L sm1) as [[sm2 evs2]|] eqn:E; simpl in H; [|done]. injection H as -> <-.
    assert (forall x r, want l x = Some r -> want l' x = Some r) as Hst by (intros x r Hx; by apply want_stable).
    assert (holds (sm_testcases sm1) l') as HM.
    { intros x Hx. subst sm1 l'. simpl. rewrite score_of_snoc by done. case_decide as Hd; [subst; by rewrite lookup_insert|]. rewrite lookup_insert_ne by done. by apply I1. }
    assert (forall x, x ∈ L <-> f x = None /\ x ∈ order) as HL by (intros x; subst L; apply (elem_of_list_filter (fun st => f st = None))).
    destruct (score_subtasks_spec l' L sm1 sm' evs2 f HM eq_refl) as (H1 & H2 & H3 & H4 & H5 & H6); [subst L; apply NoDup_filter, order_nodup|intros x Hx; apply HL in Hx; by destruct Hx|done|].
    assert (forall x, x ∈ order -> (if decide (x ∈ L) then fst <$> want l' x else f x) = fst <$> want l' x) as Hnew.
    { intros x Hx. case_decide as Hd; [done|]. destruct (f x) as [y|] eqn:Ef; [|exfalso; by apply Hd, HL]. subst f. simpl in Ef. apply fmap_Some in Ef as (r & Hr & ->).
      by rewrite (Hst _ _ Hr). }
    assert (sm_subtasks sm' = view (fun x => fst <$> want l' x)) as Hsub by (rewrite H2; by apply view_ext).
    split.
    - by rewrite H1.
    - done.
    - intros x Hx. rewrite omap_app, I3 by done. cbn. rewrite H3. case_decide as Hd.
      + apply HL in Hd as [Hd _]. subst f. simpl in Hd. apply fmap_None in Hd. by rewrite Hd.
      + rewrite app_nil_r. destruct (want l x) as [r|] eqn:Ew; [by rewrite (Hst _ _ Ew)|]. exfalso. apply Hd, HL. subst f. simpl. by rewrite Ew.
    - rewrite omap_app, I4. cbn. rewrite H4, Hsub, mapM_view. destruct L as [|x0 L0] eqn:EL.
      + rewrite app_nil_r. replace (mapM (fun st => fst <$> want l' st) order) with (mapM (fun st => fst <$> want l st) order); [done|].
        apply mapM_ext. intros x. destruct (decide (x ∈ order)) as [Hx|Hx].
        * destruct (want l x) as [r|] eqn:Ew; [by rewrite (Hst _ _ Ew)|]. exfalso. apply (not_elem_of_nil x). apply HL. subst f. simpl. by rewrite Ew.
        * unfold want. destruct (info_of t x) eqn:Ei; [|done]. exfalso. apply Hx, order_in. by rewrite Ei.
      + destruct (proj1 (HL x0) ltac:(by left)) as [Hf0 Ho0]. rewrite (mapM_None_in f order x0) by done.
        destruct order as [|y ys]; [by apply elem_of_nil in Ho0|]. done.
    - rewrite omap_app, I5. cbn. by rewrite H5.
    - intros x Hx. destruct (decide (x ∈ L)) as [Hd|Hd]; [by apply H6|]. intros info scores Hi Hs.
      assert (exists r, want l x = Some r) as [r Hr].
      { destruct (want l x) as [r|] eqn:Ew; [by eexists|]. exfalso. apply Hd, HL. subst f. simpl. by rewrite Ew. }
      apply Hst in Hr. unfold want, expected in Hr. rewrite Hi in Hr. simpl in Hr. rewrite Hs in Hr. simpl in Hr. by destruct (aggregate agg scores).
  Qed.
  Lemma new_inv sm evs : new_manager t order = Some (sm, evs) -> inv [] sm evs.
  Proof.
    unfold new_manager. intros H. set (sm0 := ScoreManager _ _) in H. set (L := omap _ _) in H.
    assert (forall x, x ∈ L <-> exists info, (x, info) ∈ tk_subtasks t /\ st_testcases info = []) as HL.
    { intros x. subst L. rewrite elem_of_list_omap. split.
      - intros ([y info] & Hin & He). simpl in He. destruct (st_testcases info) eqn:Et; [|done]. simplify_eq. eauto.
      - intros (info & Hin & He). exists (x, info). split; [done|]. simpl. by rewrite He. }
    assert (holds (sm_testcases sm0) []) as HM.
    { intros tc Htc. subst sm0. simpl. apply elem_of_list_to_map_1'.
      - intros v Hv. apply elem_of_list_fmap in Hv as (? & [= -> ->] & _). done.
      - apply elem_of_list_fmap. by exists tc. }
    assert (sm_subtasks sm0 = view (fun _ => None)) as Hv by done.
    assert (NoDup L) as HLn.
    { destruct Hok as (Hn & _). subst L. clear -Hn. induction (tk_subtasks t) as [|[x info] l IH]; [constructor|]. simpl in Hn. apply NoDup_cons in Hn as [Hx Hn].
      cbn. destruct (st_testcases info); [|by apply IH]. apply NoDup_cons. split; [|by apply IH]. intros Hin. apply elem_of_list_omap in Hin as ([y i2] & Hin & He). simpl in He.
      destruct (st_testcases i2); [|done]. simplify_eq. apply Hx. apply elem_of_list_fmap. by exists (x, i2). }
    destruct (score_subtasks_spec [] L sm0 sm evs (fun _ => None) HM Hv HLn) as (H1 & H2 & H3 & H4 & H5 & H6); [|done|].
    { intros x Hx. apply HL in Hx as (info & Hin & _). split; [|done]. apply order_in. rewrite (info_in _ _ Hin). eauto. }
    assert (forall x, x ∈ order -> x ∉ L -> want [] x = None) as Hno.
    { intros x Hx Hd. unfold want. destruct (info_of t x) as [info|] eqn:Ei; [|done]. simpl. unfold expected, subtask_scores.
      destruct (st_testcases info) as [|tc tcs] eqn:Et; [|done]. exfalso. apply Hd, HL. exists info. split; [by apply in_info|done]. }
    assert (forall x, x ∈ order -> (if decide (x ∈ L) then fst <$> want [] x else None) = fst <$> want [] x) as Hnew.
    { intros x Hx. case_decide as Hd; [done|]. by rewrite Hno. }
    assert (sm_subtasks sm = view (fun x => fst <$> want [] x)) as Hsub by (rewrite H2; by apply view_ext).
    split.
    - by rewrite H1.
    - done.
    - intros x Hx. rewrite H3. case_decide as Hd; [done|]. by rewrite Hno.
    - rewrite H4, Hsub, mapM_view. destruct L as [|x0 L0] eqn:EL.
      + destruct order as [|y ys] eqn:Eo; [done|]. rewrite (mapM_None_in _ _ y); [done|by left|]. rewrite Hno; [done|by left|apply not_elem_of_nil].
      + destruct (proj1 (HL x0) ltac:(by left)) as (info & Hin & _). assert (x0 ∈ order) as Hx0 by (apply order_in; rewrite (info_in _ _ Hin); eauto).
        destruct order as [|y ys]; [by apply elem_of_nil in Hx0|done].
    - done.
    - intros x Hx. destruct (decide (x ∈ L)) as [Hd|Hd]; [by apply H6|]. intros info scores Hi Hs. exfalso. apply Hd, HL. exists info. split; [by apply in_info|].
      unfold subtask_scores in Hs. by destruct (st_testcases info).
  Qed.
  Lemma score_all_inv l l0 sm evs sm' evs' : inv l0 sm evs -> arrivals_ok (l0 ++ l) -> score_all t l sm = Some (sm', evs') -> inv (l0 ++ l) sm' (evs ++ evs').
  Proof.
    revert l0 sm evs evs'. induction l as [|[[st tc] v] l IH]; intros l0 sm evs evs' HI Ha H; simpl in H.
    - simplify_eq. by rewrite !app_nil_r.
    - destruct (score t st tc v sm) as [[sm1 evs1]|] eqn:E1; simpl in H; [|done]. destruct (score_all t l sm1) as [[sm2 evs2]|] eqn:E2; simpl in H; [|done]. simplify_eq.
      assert (arrivals_ok (l0 ++ [(st, tc, v)])) as Ha1.
      { unfold arrivals_ok in *. rewrite !map_app in *. simpl in *. rewrite (cons_middle _ _ (map _ l)), app_assoc in Ha. by apply NoDup_app in Ha as (? & _). }
      replace (l0 ++ (st, tc, v) :: l) with ((l0 ++ [(st, tc, v)]) ++ l) by by rewrite <- app_assoc. rewrite app_assoc. eapply IH; [by eapply score_inv| |done]. by rewrite <- app_assoc.
  Qed.
  Lemma run_inv l evs : arrivals_ok l -> run_scores t order l = Some evs -> exists sm, inv l sm evs.
  Proof.
    intros Ha H. unfold run_scores in H. destruct (new_manager t order) as [[sm0 evs0]|] eqn:E0; simpl in H; [|done].
    destruct (score_all t l sm0) as [[sm1 evs1]|] eqn:E1; simpl in H; [|done]. simplify_eq. exists sm1. apply (score_all_inv l [] sm0); [by apply new_inv|done|done].
  Qed.
  Lemma score_all_app l1 l2 sm : score_all t (l1 ++ l2) sm = ('(sm, e1) ← score_all t l1 sm; '(sm, e2) ← score_all t l2 sm; Some (sm, e1 ++ e2)).
  Proof.
    revert sm. induction l1 as [|[[st tc] v] l1 IH]; intros sm; simpl; [by destruct (score_all t l2 sm) as [[? ?]|]|].
    destruct (score t st tc v sm) as [[sm1 e]|]; simpl; [|done]. rewrite IH. destruct (score_all t l1 sm1) as [[sm2 e1]|]; simpl; [|done].
    destruct (score_all t l2 sm2) as [[sm3 e2]|]; simpl; [|done]. by rewrite app_assoc.
  Qed.

  (** *** Nothing panics without NaN *)
  Definition total_agg : Prop := forall l, Forall (fun v => v <> S754_nan) l -> is_Some (aggregate agg l).
  Lemma aggregate_total l : Forall (fun v => v <> S754_nan) l -> is_Some (aggregate agg l).
  Proof.
    intros H. unfold aggregate. destruct agg; [|by destruct l]. destruct l as [|x l]; [by eexists|]. apply Forall_cons in H as [Hx H].
    revert x Hx. induction H as [|y l Hy H IH]; intros x Hx; simpl; [by eexists|].
    assert (exists c, f64_cmp x y = Some c) as [c ->]. { unfold f64_cmp. destruct x as [?|?| |? ? ?], y as [?|?| |? ? ?]; try done; eexists; reflexivity. }
    destruct c; by apply IH.
  Qed.
  Lemma subtask_scores_no_nan l info scores : Forall (fun x => x.2 <> S754_nan) l -> subtask_scores l info = Some scores -> Forall (fun v => v <> S754_nan) scores.
  Proof.
    intros Hl H. unfold subtask_scores in H. apply mapM_Some in H. apply Forall_forall. intros v Hv. apply elem_of_list_lookup in Hv as [i Hi].
    eapply Forall2_lookup_r in H; [|exact Hi]. destruct H as (tc & _ & H). unfold score_of in H. apply elem_of_list_to_map_2 in H.
    apply elem_of_list_fmap in H as ([[a b] c] & [= -> ->] & H). rewrite Forall_forall in Hl. apply (Hl _ H).
  Qed.
  Lemma score_subtasks_total l L sm : Forall (fun x => x.2 <> S754_nan) l -> holds (sm_testcases sm) l -> (forall st, st ∈ L -> st ∈ order) ->
    is_Some (score_subtasks t L sm).
  Proof.
    intros Hl. revert sm. induction L as [|st L IH]; intros sm HM HL; simpl; [by eexists|].
    rewrite (score_subtask_eq l) by (done || (apply HL; by left)). destruct (proj1 (order_in st) ltac:(apply HL; by left)) as [info ->]. simpl.
    destruct (subtask_scores l info) as [scores|] eqn:Es.
    - destruct (aggregate_total scores (subtask_scores_no_nan _ _ _ Hl Es)) as [n ->]. simpl.
      destruct (IH (ScoreManager (set_subtask st (f64_mul (st_max info) n) (sm_subtasks sm)) (sm_testcases sm)) HM) as [[sm2 e2] ->]; [intros; apply HL; by right|]. by eexists.
    - simpl. destruct (IH sm HM) as [[sm2 e2] ->]; [intros; apply HL; by right|]. by eexists.
  Qed.
  Lemma run_total l : arrivals_ok l -> Forall (fun x => x.2 <> S754_nan) l -> is_Some (run_scores t order l).
  Proof.
    intros Ha Hl. unfold run_scores. assert (is_Some (new_manager t order)) as [[sm0 e0] E0].
    { apply (score_subtasks_total []); [constructor| |].
      - intros tc Htc. simpl. apply elem_of_list_to_map_1'.
        + intros v Hv. apply elem_of_list_fmap in Hv as (? & [= -> ->] & _). done.
        + apply elem_of_list_fmap. by exists tc.
      - intros x Hx. apply elem_of_list_omap in Hx as ([y info] & Hin & He). simpl in He. destruct (st_testcases info); [|done]. simplify_eq.
        apply order_in. rewrite (info_in _ _ Hin). eauto. }
    rewrite E0. simpl. cut (forall l0 sm evs, inv l0 sm evs -> arrivals_ok (l0 ++ l) -> Forall (fun x => x.2 <> S754_nan) (l0 ++ l) -> is_Some (score_all t l sm)).
    { intros H. destruct (H [] sm0 e0 (new_inv _ _ E0) Ha Hl) as [[sm1 e1] ->]. by eexists. }
    clear E0 Ha Hl. intros l0 sm evs HI Ha Hl. revert l0 sm evs HI Ha Hl. induction l as [|[[st tc] v] l IH]; intros l0 sm evs HI Ha Hl; simpl; [by eexists|].
    assert (l0 ++ (st, tc, v) :: l = (l0 ++ [(st, tc, v)]) ++ l) as Heq by by rewrite <- app_assoc. rewrite Heq in Ha, Hl.
    assert (arrivals_ok (l0 ++ [(st, tc, v)])) as Ha1. { unfold arrivals_ok in *. rewrite map_app in Ha. by apply NoDup_app in Ha as (? & _). }
    assert (is_Some (score t st tc v sm)) as [[sm1 e1] E1].
    { unfold score. edestruct (score_subtasks_total (l0 ++ [(st, tc, v)])) as [[sm1 e1] E1].
      - by apply Forall_app in Hl as [? _].
      - instantiate (1 := ScoreManager (sm_subtasks sm) (<[tc := Some v]> (sm_testcases sm))). intros x Hx. simpl. rewrite score_of_snoc by done.
        case_decide as Hd; [subst; by rewrite lookup_insert|]. rewrite lookup_insert_ne by done. by apply HI.
      - instantiate (1 := omap (fun x => match x.2 with None => Some x.1 | Some _ => None end) (sm_subtasks sm)). rewrite (i_subtasks _ _ _ HI), pending_spec.
        intros x Hx. by apply elem_of_list_filter in Hx as [_ ?].
      - simpl. rewrite E1. by eexists. }
    rewrite E1. simpl. destruct (IH (l0 ++ [(st, tc, v)]) sm1 (evs ++ e1)) as [[sm2 e2] ->]; [by eapply score_inv|done|done|]. by eexists.
  Qed.
End manager.
