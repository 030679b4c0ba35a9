(** * WorkerProofs3: since the last start; counting *)
From Verif Require Import WorkerSpec WorkerProofs WorkerProofs2.

Section proofs.
  Context (empty_key : store_key).
  Local Notation wstep := (wstep empty_key). Local Notation wreach := (wreach empty_key).

  Definition execs (j : wjob) : list execution := g_execs (j_group j).
  Definition fails (e : execution) (r : sandbox_result) (lo : leftovers) : Prop :=
    res_status (compute_execution_result e r lo) <> Success.
  Definition kill_has_cause (j : wjob) (b : list wevent) : Prop :=
    forall x, EvKill x ∈ b -> exists b1 i r lo b2 e, b = b1 ++ EvReport i r lo :: b2 /\ EvKill x ∈ b2 /\ execs j !! i = Some e /\
      fails e r lo /\ x <> i /\ x ∉ omap reported b1 /\ x < length (execs j).
  Definition failure_kills (j : wjob) (b : list wevent) : Prop :=
    forall b1 i r lo b2 e x, b = b1 ++ EvReport i r lo :: b2 -> execs j !! i = Some e -> fails e r lo ->
      x <> i -> x ∉ omap reported b1 -> x < length (execs j) -> EvKill x ∈ b2.
  Definition results_ok (j : wjob) (b : list wevent) (results : list (option exec_result)) : Prop :=
    length results = length (execs j) /\
    forall i e, execs j !! i = Some e ->
      match results !! i with
      | Some (Some x) => exists r lo, EvReport i r lo ∈ b /\ final_result e r lo x
      | Some None => i ∉ omap reported b
      | None => False
      end.
  Definition outs_ok (j : wjob) (b : list wevent) (outs : gmap file_uuid store_key) : Prop :=
    (forall f k, outs !! f = Some k -> exists i e r lo, execs j !! i = Some e /\ EvReport i r lo ∈ b /\ f ∈ outputs e /\
       key_of empty_key (lo_file lo f) = Some k) /\
    (forall i e r lo f, execs j !! i = Some e -> EvReport i r lo ∈ b -> f ∈ outputs e -> lo_file lo f <> DUnreadable -> is_Some (outs !! f)).
  Definition done_ok (j : wjob) (b : list wevent) : Prop :=
    forall rs outs, EvDone rs outs ∈ b -> results_ok j b (map Some rs) /\ outs_ok j b outs.
  Definition R (j : wjob) (b : list wevent) (m : mgr) : Prop :=
    kill_has_cause j b /\ failure_kills j b /\ NoDup (omap reported b) /\ (forall i, i ∈ omap reported b -> i < length (execs j)) /\
    done_ok j b /\
    match m with
    | MRun j' results outs => j' = j /\ results_ok j b results /\ outs_ok j b outs /\ (forall rs outs, EvDone rs outs ∉ b)
    | MWait j' outs => j' = j /\ exists rs, EvDone rs outs ∈ b
    | MIdle => True
    end.
  Definition S' (tr : list wevent) (s : wstate) : Prop := forall j b, since_start tr j b -> R j b (w_mgr s).

  Lemma since_start_app tr evs j b' : Forall (fun e => is_start e = false) evs -> since_start (tr ++ evs) j b' ->
    exists b, b' = b ++ evs /\ since_start tr j b.
  Proof.
    intros He (a & h & Heq & Hb). apply app_eq_inv in Heq as [(x & -> & Hx)|(x & -> & Hx)].
    - destruct x as [|y x].
      + simpl in Hx. subst evs. apply Forall_cons in He as [? _]. done.
      + simpl in Hx. simplify_eq. exists x. split; [done|]. exists a, h. split; [done|]. by apply Forall_app in Hb as [? _].
    - rewrite Hx in He. apply Forall_app in He as [_ He]. apply Forall_cons in He as [? _]. done.
  Qed.
  Lemma since_start_new tr j h j' b : since_start (tr ++ [EvStart j h]) j' b -> j' = j /\ b = [].
  Proof.
    intros (a & h' & Heq & Hb). destruct b as [|y b _] using rev_ind.
    - by apply app_inj_tail in Heq as [_ [= <- _]].
    - rewrite app_comm_cons, app_assoc in Heq. apply app_inj_tail in Heq as [_ <-]. apply Forall_app in Hb as [_ Hb].
      by apply Forall_cons in Hb as [? _].
  Qed.
  (** Events that do not concern the manager. *)
  Definition inert (e : wevent) : Prop := match e with EvStart _ _ | EvReport _ _ _ | EvKill _ | EvDone _ _ => False | _ => True end.
  Lemma inert_facts evs : Forall inert evs -> Forall (fun e => is_start e = false) evs /\ omap reported evs = [] /\
    (forall i r lo, EvReport i r lo ∉ evs) /\ (forall x, EvKill x ∉ evs) /\ (forall rs outs, EvDone rs outs ∉ evs).
  Proof.
    intros H. split_and!.
    - eapply Forall_impl; [exact H|]. by intros [].
    - apply omap_none. eapply Forall_impl; [exact H|]. by intros [].
    - intros i r lo Hin. eapply Forall_forall in H; [|exact Hin]. done.
    - intros i Hin. eapply Forall_forall in H; [|exact Hin]. done.
    - intros i o Hin. eapply Forall_forall in H; [|exact Hin]. done.
  Qed.
  Lemma results_ok_mono j b evs results : results_ok j b results -> omap reported evs = [] -> results_ok j (b ++ evs) results.
  Proof.
    intros [H1 H2] He. split; [done|]. intros i e Hi. specialize (H2 i e Hi). destruct (results !! i) as [[x|]|]; [|by rewrite omap_app, He, app_nil_r|done].
    destruct H2 as (r & lo & ? & ?). exists r, lo. split; [|done]. apply elem_of_app. by left.
  Qed.
  Lemma outs_ok_mono j b evs outs : outs_ok j b outs -> (forall i r lo, EvReport i r lo ∉ evs) -> outs_ok j (b ++ evs) outs.
  Proof.
    intros [H1 H2] He. split.
    - intros f k Hk. destruct (H1 f k Hk) as (i & e & r & lo & ? & ? & ? & ?). exists i, e, r, lo. split_and!; try done. apply elem_of_app. by left.
    - intros i e r lo f Hi [Hr|Hr]%elem_of_app; [by eapply H2|]. by apply He in Hr.
  Qed.
  Lemma split_report b evs b1 i r lo b2 : b ++ evs = b1 ++ EvReport i r lo :: b2 -> (forall i r lo, EvReport i r lo ∉ evs) ->
    exists b2', b = b1 ++ EvReport i r lo :: b2' /\ b2 = b2' ++ evs.
  Proof.
    intros Heq Hn. apply app_eq_inv in Heq as [(x & -> & Hx)|(x & -> & Hx)].
    - destruct x as [|y x]; simpl in Hx.
      + exfalso. apply (Hn i r lo). rewrite <- Hx. by left.
      + simplify_eq. by exists x.
    - exfalso. apply (Hn i r lo). rewrite Hx. apply elem_of_app. right. by left.
  Qed.
  Lemma R_inert j b m m' evs : R j b m -> Forall inert evs -> m' = m \/ m' = MIdle -> R j (b ++ evs) m'.
  Proof.
    intros (H1 & H2 & H3 & H4 & H5 & H6) He Hm. destruct (inert_facts _ He) as (_ & Hr & Hr' & Hk & Hd). split_and!.
    - intros x [Hx|Hx]%elem_of_app; [|by apply Hk in Hx]. destruct (H1 x Hx) as (b1 & i & r & lo & b2 & e & -> & ? & ? & ? & ? & ? & ?).
      exists b1, i, r, lo, (b2 ++ evs), e. split_and!; try done; [by rewrite <- app_assoc|]. apply elem_of_app. by left.
    - intros b1 i r lo b2 e x Heq. apply split_report in Heq as (b2' & -> & ->); [|done]. intros. apply elem_of_app. left. by eapply H2.
    - by rewrite omap_app, Hr, app_nil_r.
    - by rewrite omap_app, Hr, app_nil_r.
    - intros rs outs [Hx|Hx]%elem_of_app; [|by apply Hd in Hx]. destruct (H5 rs outs Hx). split; [by apply results_ok_mono|by apply outs_ok_mono].
    - destruct Hm as [->| ->]; [|done]. destruct m as [|j' results outs|j' outs]; [done|..].
      + destruct H6 as (-> & G1 & G2 & G3). split_and!; [done|by apply results_ok_mono|by apply outs_ok_mono|].
        intros rs o [Hx|Hx]%elem_of_app; [by apply G3 in Hx|by apply Hd in Hx].
      + destruct H6 as (-> & rs & ?). split; [done|]. exists rs. apply elem_of_app. by left.
  Qed.
  Lemma S_inert tr s evs s' : S' tr s -> Forall inert evs -> w_mgr s' = w_mgr s \/ w_mgr s' = MIdle -> S' (tr ++ evs) s'.
  Proof.
    intros H He Hm j b Hb. destruct (inert_facts _ He) as (Hs & _). apply since_start_app in Hb as (b' & -> & Hb); [|done].
    eapply R_inert; [by apply H|done|done].
  Qed.
  Lemma R_start j : R j [] (MRun j (replicate (length (execs j)) None) ∅).
  Proof.
    split_and!.
    - intros x Hx. by apply elem_of_nil in Hx.
    - intros b1 i r lo b2 e x H. by destruct b1.
    - constructor.
    - intros i Hi. by apply elem_of_nil in Hi.
    - intros rs outs Hx. by apply elem_of_nil in Hx.
    - done.
    - split; [by rewrite replicate_length|]. intros i e Hi. rewrite lookup_replicate_2; [|by eapply lookup_lt_Some]. by intros ?%elem_of_nil.
    - split; [intros f k Hf; by rewrite lookup_empty in Hf|]. intros i e r lo f _ Hx. by apply elem_of_nil in Hx.
    - intros rs outs Hx. by apply elem_of_nil in Hx.
  Qed.
  Lemma start_job_S tr s ok evs0 evs s' : S' tr s -> Forall inert evs0 -> start_job ok s = (evs, s') -> S' (tr ++ evs0 ++ evs) s'.
  Proof.
    intros HS He0 H. unfold start_job in H. destruct (w_job s) as [[j h]|]; [destruct ok|]; simplify_eq.
    - rewrite app_assoc. intros j' b Hb. apply since_start_new in Hb as [-> ->]. apply R_start.
    - rewrite app_nil_r. apply (S_inert tr s); [done|done|by left].
    - rewrite app_nil_r. apply (S_inert tr s); [done|done|by left].
  Qed.

  Lemma get_result_outputs_spec e lo outs st outs' st' : get_result_outputs empty_key e lo outs st = (outs', st') ->
    (forall f k, outs' !! f = Some k -> outs !! f = Some k \/ (f ∈ outputs e /\ key_of empty_key (lo_file lo f) = Some k)) /\
    (forall f, is_Some (outs !! f) -> is_Some (outs' !! f)) /\
    (forall f, f ∈ outputs e -> lo_file lo f <> DUnreadable -> is_Some (outs' !! f)) /\
    ((unreadable e lo /\ st' = InternalError "Failed to get store key") \/ (~ unreadable e lo /\ st' = st)).
  Proof.
    unfold get_result_outputs, unreadable. generalize (outputs e). intros l. revert outs st.
    induction l as [|f l IH]; intros outs st H; simpl in H.
    - simplify_eq. split_and!; [by left|done|by intros f ?%elem_of_nil|]. right. split; [|done]. intros (f & ?%elem_of_nil & _). done.
    - unfold add_file at 2 in H. destruct (lo_file lo f) as [| |k0] eqn:Ef; simpl in H; apply IH in H as (H1 & H2 & H3 & H4).
      + split_and!.
        * intros f' k Hk. destruct (H1 f' k Hk) as [Hi|[? ?]]; [|right; split; [by right|done]].
          apply lookup_insert_Some in Hi as [[<- <-]|[_ ?]]; [|by left]. right. rewrite Ef. split; [by left|done].
        * intros f' Hf'. apply H2. destruct (decide (f = f')) as [->|]; [rewrite lookup_insert; eauto|by rewrite lookup_insert_ne].
        * intros f' [->|Hf']%elem_of_cons Hd; [|by apply H3]. apply H2. rewrite lookup_insert. eauto.
        * destruct H4 as [[(f' & ? & ?) ->]|[Hn ->]]; [left; split; [|done]; exists f'; split; [by right|done]|right; split; [|done]].
          intros (f' & [->|Hf']%elem_of_cons & Hu); [congruence|]. apply Hn. eauto.
      + split_and!.
        * intros f' k Hk. destruct (H1 f' k Hk) as [Hi|[? ?]]; [by left|right; split; [by right|done]].
        * done.
        * intros f' [->|Hf']%elem_of_cons Hd; [done|by apply H3].
        * left. split; [exists f; split; [by left|done]|]. by destruct H4 as [[_ ->]|[_ ->]].
      + split_and!.
        * intros f' k Hk. destruct (H1 f' k Hk) as [Hi|[? ?]]; [|right; split; [by right|done]].
          apply lookup_insert_Some in Hi as [[<- <-]|[_ ?]]; [|by left]. right. rewrite Ef. split; [by left|done].
        * intros f' Hf'. apply H2. destruct (decide (f = f')) as [->|]; [rewrite lookup_insert; eauto|by rewrite lookup_insert_ne].
        * intros f' [->|Hf']%elem_of_cons Hd; [|by apply H3]. apply H2. rewrite lookup_insert. eauto.
        * destruct H4 as [[(f' & ? & ?) ->]|[Hn ->]]; [left; split; [|done]; exists f'; split; [by right|done]|right; split; [|done]].
          intros (f' & [->|Hf']%elem_of_cons & Hu); [congruence|]. apply Hn. eauto.
  Qed.
  Lemma killed_by_spec results i x : x ∈ killed_by results i <-> x <> i /\ results !! x = Some None.
  Proof.
    unfold killed_by. rewrite elem_of_list_In, filter_In, <- elem_of_list_In, elem_of_seq, andb_true_iff, negb_true_iff, Nat.eqb_neq.
    unfold pending. split.
    - intros (_ & Hne & Hp). split; [done|]. by destruct (results !! x) as [[]|].
    - intros [Hne Hx]. rewrite Hx. apply lookup_lt_Some in Hx. split_and!; [lia|lia|done|done].
  Qed.
  Lemma is_success_true st : is_success st = true <-> st = Success.
  Proof. by destruct st. Qed.
  Lemma R_report j b results outs i e r lo kills m :
    R j b (MRun j results outs) -> results !! i = Some None -> execs j !! i = Some e ->
    on_report empty_key j results outs i e r lo = (kills, m) -> R j (b ++ EvReport i r lo :: kills) m.
  Proof.
    intros (H1 & H2 & H3 & H4 & H5 & _ & G1 & G2 & G3) Hi He H. unfold on_report in H.
    destruct (get_result_outputs _ _ _ _ _) as [outs' st'] eqn:Eo. apply get_result_outputs_spec in Eo as (O1 & O2 & O3 & O4).
    set (res := compute_execution_result e r lo) in *. simplify_eq.
    set (kills := if is_success (res_status res) then [] else map EvKill (killed_by results i)) in *.
    assert (i ∉ omap reported b) as Hnew. { destruct G1 as [_ G1]. specialize (G1 i e He). by rewrite Hi in G1. }
    assert (omap reported kills = [] /\ (forall i r lo, EvReport i r lo ∉ kills) /\ (forall rs outs, EvDone rs outs ∉ kills) /\
      (forall x, EvKill x ∈ kills <-> fails e r lo /\ x <> i /\ results !! x = Some None)) as (K1 & K2 & K3 & K4).
    { unfold kills, fails. fold res. destruct (is_success (res_status res)) eqn:Es.
      - apply is_success_true in Es. split_and!; [done|by intros ??? ?%elem_of_nil|by intros ?? ?%elem_of_nil|].
        intros x. split; [by intros ?%elem_of_nil|]. by intros (Hn & _).
      - split_and!.
        + apply omap_none. by apply Forall_fmap, Forall_true.
        + by intros ??? (? & ? & _)%elem_of_list_fmap.
        + by intros ?? (? & ? & _)%elem_of_list_fmap.
        + intros x. rewrite elem_of_list_fmap. split.
          * intros (y & [= <-] & Hy). apply killed_by_spec in Hy. split; [|done]. intros Hs. by rewrite Hs in Es.
          * intros (_ & Hx). exists x. split; [done|]. by apply killed_by_spec. }
    assert (forall x, x < length (execs j) -> results !! x = Some None <-> x ∉ omap reported b) as Hpend.
    { intros x Hx. destruct G1 as [G0 G1]. destruct (lookup_lt_is_Some_2 (execs j) x Hx) as [e' He'].
      specialize (G1 x e' He'). destruct (results !! x) as [[y|]|]; [|done|done]. split; [done|]. intros Hn. exfalso. apply Hn.
      destruct G1 as (r' & lo' & Hin & _). apply elem_of_list_omap. exists (EvReport x r' lo'). done. }
    assert (omap reported (b ++ EvReport i r lo :: kills) = omap reported b ++ [i]) as Hrep.
    { rewrite omap_app. f_equal. cbn. change (i :: omap reported kills = [i]). by rewrite K1. }
    split_and!.
    - intros x [Hx|[?|Hx]%elem_of_cons]%elem_of_app; [|done|].
      + destruct (H1 x Hx) as (b1 & i' & r' & lo' & b2 & e' & -> & ? & ? & ? & ? & ? & ?).
        exists b1, i', r', lo', (b2 ++ EvReport i r lo :: kills), e'. split_and!; try done; [by rewrite <- app_assoc|]. apply elem_of_app. by left.
      + apply K4 in Hx as Hx'. destruct Hx' as (Hf & Hne & Hp). exists b, i, r, lo, kills, e. split_and!; try done.
        * apply Hpend; [|done]. destruct G1 as [<- _]. by eapply lookup_lt_Some.
        * destruct G1 as [<- _]. by eapply lookup_lt_Some.
    - intros b1 i' r' lo' b2 e' x Heq He' Hf Hne Hx Hlt.
      apply app_eq_inv in Heq as [(y & -> & Hy)|(y & -> & Hy)].
      + destruct y as [|z y]; simpl in Hy.
        * simplify_eq. rewrite app_nil_r in *. apply K4. split_and!; [congruence|done|]. by apply Hpend.
        * simplify_eq. apply elem_of_app. left. by eapply H2.
      + destruct y as [|z y]; simpl in Hy.
        * simplify_eq. rewrite app_nil_r in *. apply K4. split_and!; [congruence|done|]. by apply Hpend.
        * simplify_eq. exfalso. eapply (K2 i' r' lo'). rewrite H0. apply elem_of_app. right. by left.
    - rewrite Hrep. apply NoDup_app. split_and!; [done| |apply NoDup_singleton]. by intros y Hy ->%elem_of_list_singleton.
    - rewrite Hrep. intros x [Hx|Hx%elem_of_list_singleton]%elem_of_app; [by apply H4|]. subst. by eapply lookup_lt_Some.
    - intros rs o [Hx|[?|Hx]%elem_of_cons]%elem_of_app; [by apply G3 in Hx|done|by apply K3 in Hx].
    - done.
    - split; [rewrite insert_length; by destruct G1|]. intros x e' Hx. destruct (decide (x = i)) as [->|Hne].
      + rewrite list_lookup_insert by (by eapply lookup_lt_Some). exists r, lo. split; [apply elem_of_app; right; by left|]. simplify_eq.
        unfold final_result. fold res. destruct O4 as [[? ->]|[? ->]]; [by left|right; split; [done|]]. by destruct res.
      + rewrite list_lookup_insert_ne by done. destruct G1 as [_ G1]. specialize (G1 x e' Hx). destruct (results !! x) as [[y|]|]; [|rewrite Hrep, elem_of_app, elem_of_list_singleton; by intros [?|?]|done].
        destruct G1 as (r' & lo' & ? & ?). exists r', lo'. split; [apply elem_of_app; by left|done].
    - destruct G2 as [G2a G2b]. split.
      + intros f k Hk. destruct (O1 f k Hk) as [Ho|[? ?]].
        * destruct (G2a f k Ho) as (x & e' & r' & lo' & ? & ? & ? & ?). exists x, e', r', lo'. split_and!; try done. apply elem_of_app. by left.
        * exists i, e, r, lo. split_and!; try done. apply elem_of_app. right. by left.
      + intros x e' r' lo' f Hx [Hr|[Hr|Hr]%elem_of_cons]%elem_of_app Hf Hd.
        * apply O2. by eapply G2b.
        * simplify_eq. by apply O3.
        * by apply K2 in Hr.
    - intros rs o [Hx|[?|Hx]%elem_of_cons]%elem_of_app; [by apply G3 in Hx|done|by apply K3 in Hx].
  Qed.
  Lemma R_done j b rs outs : R j b (MRun j (map Some rs) outs) -> R j (b ++ [EvDone rs outs]) (MWait j outs).
  Proof.
    intros (H1 & H2 & H3 & H4 & H5 & _ & G1 & G2 & G3). split_and!.
    - intros x Hx. assert (EvKill x ∈ b) as Hx' by set_solver. destruct (H1 x Hx') as (b1 & i & r & lo & b2 & e & -> & ? & ? & ? & ? & ? & ?).
      exists b1, i, r, lo, (b2 ++ [EvDone rs outs]), e. split_and!; try done; [by rewrite <- app_assoc|]. apply elem_of_app. by left.
    - intros b1 i r lo b2 e x Heq. apply split_report in Heq as (b2' & -> & ->); [|set_solver]. intros. apply elem_of_app. left. by eapply H2.
    - rewrite omap_app. cbn. by rewrite app_nil_r.
    - rewrite omap_app. cbn. by rewrite app_nil_r.
    - intros rs' o [Hx|Hx%elem_of_list_singleton]%elem_of_app; [by apply G3 in Hx|]. simplify_eq.
      split; [by apply results_ok_mono|]. apply outs_ok_mono; [done|set_solver].
    - done.
    - exists rs. set_solver.
  Qed.

  Definition since_some (tr : list wevent) (m : mgr) : Prop := match busy m with Some j => exists b, since_start tr j b | None => True end.

  Lemma S_step tr s evs s' : S' tr s -> wstep s evs s' -> S' (tr ++ evs) s'.
  Proof.
    intros HS Hstep. destruct Hstep as [s get stored start_ok m evs s' Hmain H|s evs s' Hmain H|s j results outs i e r lo kills m Hm Hi He H
      |s j results outs rs Hm Hr|s j outs l Hm Hq|s j outs Hm Hq Hs].
    - destruct m as [j|k| |g|l]; simpl in H.
      + unfold on_work in H. destruct (w_job s) as [[j' h']|] eqn:Ej.
        { simplify_eq. apply (S_inert tr s); [done|by repeat constructor|by left]. }
        destruct (scan (j_keys j) get 0 (group_deps (j_group j)) ∅ ∅) as [evs' r] eqn:Es.
        pose proof (scan_events _ _ _ _ _ _ _ _ Es) as (Hask & _).
        assert (Forall inert (EvRecv (WWork j) :: evs')) as Hin. { constructor; [done|]. eapply Forall_impl; [exact Hask|]. by intros e [k ->]. }
        destruct r as [[m h]|]; [|simplify_eq; by apply (S_inert tr s); [| |left]]. case_decide as Hmis.
        * destruct (start_job start_ok _) as [evs2 s2] eqn:Est. simplify_eq. rewrite app_comm_cons. eapply start_job_S; [|exact Hin|exact Est]. exact HS.
        * simplify_eq. by apply (S_inert tr s); [| |left].
      + unfold on_provide_file in H. assert (Forall inert [EvRecv (WProvideFile k)]) as Hin by by repeat constructor.
        destruct (negb stored). { simplify_eq. by apply (S_inert tr s); [| |left]. }
        destruct (w_missing s !! k) as [uuids|]; [|simplify_eq; by apply (S_inert tr s); [| |left]].
        destruct (w_job s) as [[j h]|]; [|simplify_eq; by apply (S_inert tr s); [| |left]].
        case_decide.
        * change (EvRecv (WProvideFile k) :: evs) with ([EvRecv (WProvideFile k)] ++ evs). eapply start_job_S; [|exact Hin|exact H]. exact HS.
        * simplify_eq. by apply (S_inert tr s); [| |left].
      + simplify_eq. apply (S_inert tr s); [done|by repeat constructor|by left].
      + unfold on_kill_job in H.
        assert (s' = s /\ Forall inert evs) as [-> Ho].
        { destruct (w_job s) as [[j h]|]; [|by simplify_eq]. destruct (w_boxes s) as [n|]; [|by simplify_eq].
          simplify_eq. split; [done|]. case_decide; [by apply Forall_fmap, Forall_true|constructor]. }
        apply (S_inert tr s); [done|by constructor|by left].
      + unfold on_ask_files in H. destruct (w_sender s); simplify_eq.
        * apply (S_inert tr s); [done|by repeat constructor|by left].
        * apply (S_inert tr s'); [done|by repeat constructor|by left].
    - unfold on_closed in H. simplify_eq. apply (S_inert tr s); [done| |by left]. constructor; [done|].
      destruct (w_boxes s); [by apply Forall_fmap, Forall_true|constructor].
    - intros j' b' Hb. assert (Forall (fun e => is_start e = false) (EvReport i r lo :: kills)) as Hns.
      { constructor; [done|]. unfold on_report in H. destruct (get_result_outputs _ _ _ _ _). simplify_eq.
        destruct (is_success _); [constructor|by apply Forall_fmap, Forall_true]. }
      apply since_start_app in Hb as (b & -> & Hb); [|done]. specialize (HS j' b Hb). rewrite Hm in HS.
      assert (j' = j) as -> by (destruct HS as (_ & _ & _ & _ & _ & ? & _); done).
      eapply R_report; [exact HS|done|done|done].
    - intros j' b' Hb. apply since_start_app in Hb as (b & -> & Hb); [|by repeat constructor]. specialize (HS j' b Hb). rewrite Hm in HS.
      assert (j' = j) as -> by (destruct HS as (_ & _ & _ & _ & _ & ? & _); done). simpl. apply R_done. by subst results.
    - apply (S_inert tr s); [done| |by right]. apply Forall_app. split; [|by repeat constructor].
      clear. unfold provide. induction l as [|f l IH]; [constructor|]. cbn. destruct (outs !! f); [|exact IH]. constructor; [done|exact IH].
    - apply (S_inert tr s); [done|by repeat constructor|by right].
  Qed.
  Lemma S_reach tr s : wreach tr s -> S' tr s.
  Proof.
    induction 1 as [|tr s evs s' Hr IH Hs]; [|by eapply S_step].
    intros j b (a & h & Heq & _). destruct a as [|? [|]]; done.
  Qed.

  (** ** Counting *)
  Definition C (tr : list wevent) (s : wstate) : Prop :=
    (w_main s = MainRun -> (busy (w_mgr s) <> None -> w_sender s = true \/ is_Some (w_queue s)) /\
       count is_work tr + 1 = count is_get_work tr + (if w_job s then 1 else 0)) /\
    count is_start tr + 1 = count is_get_work tr + count is_dropped tr + (if busy (w_mgr s) then 1 else 0).
  Lemma C_zero tr s evs s' : C tr s -> Forall (fun e => is_work e = false /\ is_get_work e = false /\ is_start e = false /\ is_dropped e = false) evs ->
    busy (w_mgr s') = busy (w_mgr s) ->
    (w_main s' = MainRun -> w_main s = MainRun /\ (w_sender s' = w_sender s /\ w_queue s' = w_queue s \/ is_Some (w_queue s')) /\ (if w_job s' then 1 else 0) = (if w_job s then 1 else 0)) -> C (tr ++ evs) s'.
  Proof.
    intros [H1 H2] He Hb Hm. unfold C. rewrite !count_app, !(count_none _ evs), !Nat.add_0_r, Hb.
    2-5: (eapply Forall_impl; [exact He|]; by intros e (? & ? & ? & ?)).
    split; [|done]. intros Hr. destruct (Hm Hr) as (Hr' & Hc & ->). destruct (H1 Hr') as [G1 G2]. split; [|done].
    intros Hbusy. destruct Hc as [[-> ->]|?]; [by apply G1|by right].
  Qed.
  Lemma scan_no_events evs : Forall ask_event evs -> Forall (fun e => is_work e = false /\ is_get_work e = false /\ is_start e = false /\ is_dropped e = false) evs.
  Proof. intros H. eapply Forall_impl; [exact H|]. by intros e [k ->]. Qed.
  Lemma C_start tr s0 s evs ok evs' s' : J tr s0 -> C tr s0 -> w_main s0 = MainRun -> busy (w_mgr s0) = None -> busy (w_mgr s) = None ->
    w_main s = MainRun ->
    Forall (fun e => is_get_work e = false /\ is_start e = false /\ is_dropped e = false) evs ->
    count is_work evs + (if w_job s0 then 1 else 0) = 1 ->
    start_job ok s = (evs', s') -> C (tr ++ evs ++ evs') s'.
  Proof.
    intros HJ [H1 H2] Hm0 Hb0 Hb Hm He Hc H. destruct (H1 Hm0) as [_ G]. unfold start_job in H.
    assert (count is_get_work evs = 0 /\ count is_start evs = 0 /\ count is_dropped evs = 0) as (Z1 & Z2 & Z3).
    { split_and!; apply count_none; (eapply Forall_impl; [exact He|]; by intros e (? & ? & ?)). }
    unfold C. rewrite !count_app, Z1, Z2, Z3. rewrite Hb0 in H2.
    destruct (w_job s) as [[j h]|] eqn:Ej; [destruct ok|]; simplify_eq; simpl.
    - change (count is_work [EvStart j h]) with 0. change (count is_start [EvStart j h]) with 1.
      change (count is_get_work [EvStart j h]) with 0. change (count is_dropped [EvStart j h]) with 0.
      split; [|lia]. intros _. split; [by left|]. lia.
    - change (count is_start []) with 0. change (count is_get_work []) with 0. change (count is_dropped []) with 0. rewrite Hb. split; [done|]. lia.
    - change (count is_start []) with 0. change (count is_get_work []) with 0. change (count is_dropped []) with 0. rewrite Hb. split; [done|]. lia.
  Qed.
  Lemma C_step tr s evs s' : J tr s -> K tr s -> C tr s -> wstep s evs s' -> C (tr ++ evs) s'.
  Proof.
    intros HJ HK HC Hstep. destruct Hstep as [s get stored start_ok m evs s' Hmain H|s evs s' Hmain H|s j results outs i e r lo kills m Hm Hi He H
      |s j results outs rs Hm Hr|s j outs l Hm Hq|s j outs Hm Hq Hs].
    - destruct m as [j|k| |g|l]; simpl in H.
      + unfold on_work in H. destruct (w_job s) as [[j' h']|] eqn:Ej.
        { simplify_eq. destruct HC as [H1 H2]. unfold C. rewrite !count_app.
          change (count is_start [EvRecv (WWork j)]) with 0. change (count is_get_work [EvRecv (WWork j)]) with 0.
          change (count is_dropped [EvRecv (WWork j)]) with 0. simpl. split; [done|]. lia. }
        assert (busy (w_mgr s) = None) as Hb.
        { destruct HJ as [_ HJ]. destruct (busy (w_mgr s)); [|done]. destruct HJ as (_ & _ & h & ?). by rewrite Ej in *. }
        destruct (scan (j_keys j) get 0 (group_deps (j_group j)) ∅ ∅) as [evs' r] eqn:Es.
        pose proof (scan_events _ _ _ _ _ _ _ _ Es) as (Hask & _). apply scan_no_events in Hask.
        assert (Forall (fun e => is_get_work e = false /\ is_start e = false /\ is_dropped e = false) (EvRecv (WWork j) :: evs')) as Hev.
        { constructor; [done|]. eapply Forall_impl; [exact Hask|]. by intros e (? & ? & ? & ?). }
        assert (count is_work (EvRecv (WWork j) :: evs') = 1) as Hone.
        { change (S (count is_work evs') = 1). rewrite count_none; [done|]. eapply Forall_impl; [exact Hask|]. by intros e (? & ? & ? & ?). }
        assert (count is_get_work (EvRecv (WWork j) :: evs') = 0 /\ count is_start (EvRecv (WWork j) :: evs') = 0 /\ count is_dropped (EvRecv (WWork j) :: evs') = 0) as (Z1 & Z2 & Z3).
        { split_and!; apply count_none; (eapply Forall_impl; [exact Hev|]; by intros e (? & ? & ?)). }
        destruct r as [[m h]|].
        * case_decide as Hmis.
          -- destruct (start_job start_ok _) as [evs2 s2] eqn:Est. simplify_eq. rewrite app_comm_cons.
             eapply (C_start tr s); [done|done|done|done| | |exact Hev| |exact Est]; [done|done|]. by rewrite Hone, Ej.
          -- simplify_eq. destruct HC as [H1 H2]. unfold C. rewrite !count_app, Hone, Z1, Z2, Z3. simpl. rewrite Hb in *.
             split; [|lia]. intros _. split; [done|]. destruct (H1 Hmain) as [_ G]. rewrite Ej in G. lia.
        * simplify_eq. destruct HC as [H1 H2]. unfold C. rewrite !count_app, Z1, Z2, Z3. simpl. split; [done|]. lia.
      + unfold on_provide_file in H.
        assert (forall s', busy (w_mgr s') = busy (w_mgr s) -> w_main s' <> MainRun -> C (tr ++ [EvRecv (WProvideFile k)]) s') as Hfail.
        { intros s'' Hb Hn. apply (C_zero tr s); [done|by repeat constructor|done|done]. }
        destruct (negb stored). { simplify_eq. by apply Hfail. }
        destruct (w_missing s !! k) as [uuids|] eqn:Em; [|simplify_eq; by apply Hfail].
        destruct (w_job s) as [[j h]|] eqn:Ej; [|simplify_eq; by apply Hfail].
        assert (busy (w_mgr s) = None) as Hb.
        { destruct HJ as [_ HJ]. destruct (busy (w_mgr s)); [|done]. destruct HJ as (_ & HJ & _). by rewrite HJ in Em. }
        case_decide.
        * change (EvRecv (WProvideFile k) :: evs) with ([EvRecv (WProvideFile k)] ++ evs).
          eapply (C_start tr s); [done|done|done|done| | |by repeat constructor| |exact H]; simpl; [done|done|]. by rewrite Ej.
        * simplify_eq. apply (C_zero tr s); [done|by repeat constructor|done|]. simpl. intros _. split_and!; [done|by left|by rewrite Ej].
      + simplify_eq. apply (C_zero tr s); [done|by repeat constructor|done|done].
      + unfold on_kill_job in H.
        assert (s' = s /\ Forall (fun e => is_work e = false /\ is_get_work e = false /\ is_start e = false /\ is_dropped e = false) evs) as [-> Ho].
        { destruct (w_job s) as [[j h]|]; [|by simplify_eq]. destruct (w_boxes s) as [n|]; [|by simplify_eq].
          simplify_eq. split; [done|]. case_decide; [by apply Forall_fmap, Forall_true|constructor]. }
        apply (C_zero tr s); [done|by constructor|done|]. intros _. split_and!; [done|by left|done].
      + unfold on_ask_files in H. destruct (w_sender s) eqn:Es; simplify_eq.
        * apply (C_zero tr s); [done|by repeat constructor|done|]. simpl. intros _. split_and!; [done|right; eauto|done].
        * apply (C_zero tr s'); [done|by repeat constructor|done|]. intros _. split_and!; [done|by left|done].
    - unfold on_closed in H. simplify_eq. apply (C_zero tr s); [done| |done|done]. constructor; [done|].
      destruct (w_boxes s); [by apply Forall_fmap, Forall_true|constructor].
    - unfold on_report in H. destruct (get_result_outputs _ _ _ _ _) as [outs' st]. simplify_eq.
      apply (C_zero tr s); [done| |by simpl; rewrite Hm|by intros ?; split_and!; [done|left|done]]. constructor; [done|].
      destruct (is_success _); [constructor|]. by apply Forall_fmap, Forall_true.
    - apply (C_zero tr s); [done|by repeat constructor|by simpl; rewrite Hm|]. intros ?. split_and!; [done|by left|done].
    - destruct HC as [H1 H2]. rewrite Hm in *. simpl in H1, H2. unfold C. rewrite !count_app.
      assert (Forall (fun e => is_work e = false /\ is_get_work e = false /\ is_start e = false /\ is_dropped e = false) (provide outs l)) as He.
      { clear. unfold provide. induction l as [|f l IH]; [constructor|]. cbn. destruct (outs !! f); [|exact IH]. constructor; [done|exact IH]. }
      rewrite !(count_none _ (provide outs l)). 2-5: (eapply Forall_impl; [exact He|]; by intros e (? & ? & ? & ?)).
      change (count is_work [EvGetWork]) with 0. change (count is_start [EvGetWork]) with 0.
      change (count is_get_work [EvGetWork]) with 1. change (count is_dropped [EvGetWork]) with 0. simpl. split; [|lia].
      intros Hr. split; [done|]. destruct (H1 Hr) as [_ G]. destruct HJ as [_ HJ]. rewrite Hm in HJ. simpl in HJ. destruct HJ as (_ & _ & h & Hj).
      rewrite Hj in G. lia.
    - destruct HC as [H1 H2]. rewrite Hm in *. simpl in H1, H2. unfold C. rewrite !count_app.
      change (count is_work [EvDropped]) with 0. change (count is_start [EvDropped]) with 0.
      change (count is_get_work [EvDropped]) with 0. change (count is_dropped [EvDropped]) with 1. simpl. split; [|lia].
      intros Hr. exfalso. destruct (H1 Hr) as [G _]. destruct G as [G|[? G]]; [done|congruence|congruence].
  Qed.
  Lemma C_reach tr s : wreach tr s -> C tr s.
  Proof.
    induction 1 as [|tr s evs s' Hr IH Hs]; [done|]. eapply C_step; [|by eapply K_reach|done|done]. by eapply J_reach.
  Qed.
End proofs.
