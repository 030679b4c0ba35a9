(** * WorkerProofs2: since the last job, since the last start, and counting *)
From Verif Require Import WorkerSpec WorkerProofs.

Section proofs.
  Context (empty_key : store_key).
  Local Notation wstep := (wstep empty_key). Local Notation wreach := (wreach empty_key).

  (** ** Since the last job was received *)
  Definition no_start_ask (l : list wevent) : Prop := Forall (fun e => is_work e = false /\ started e = None /\ asked e = None) l.
  (** Manager events. *)
  Definition other (l : list wevent) : Prop := Forall (fun e => is_work e = false /\ started e = None /\ asked e = None /\ got e = None) l.
  Definition inputs_ok (j : wjob) (h : gmap file_uuid store_key) : Prop :=
    forall f, f ∈ group_deps (j_group j) -> exists k, j_keys j !! f = Some k /\ h !! f = Some k.
  Definition asks_ok (j : wjob) (b : list wevent) : Prop :=
    NoDup (omap asked b) /\ forall k, EvAsk k ∈ b -> exists f, f ∈ group_deps (j_group j) /\ j_keys j !! f = Some k.
  (** The job waits for its inputs: the missing ones are the asked ones that did not arrive. *)
  Definition waiting (j : wjob) (b : list wevent) (s : wstate) : Prop :=
    exists h, w_job s = Some (j, h) /\ w_mgr s = MIdle /\ omap started b = [] /\
    (forall k, is_Some (w_missing s !! k) <-> EvAsk k ∈ b /\ EvRecv (WProvideFile k) ∉ b) /\
    (forall k fs f, w_missing s !! k = Some fs -> f ∈ fs -> f ∈ group_deps (j_group j) /\ j_keys j !! f = Some k) /\
    (forall f k, h !! f = Some k -> j_keys j !! f = Some k) /\
    (forall f, f ∈ group_deps (j_group j) -> exists k, j_keys j !! f = Some k /\ (is_Some (h !! f) \/ exists fs, w_missing s !! k = Some fs /\ f ∈ fs)).
  Definition launched (j : wjob) (b : list wevent) : Prop :=
    (exists h, omap started b = [(j, h)] /\ inputs_ok j h) /\ forall k, EvAsk k ∈ b -> EvRecv (WProvideFile k) ∈ b.
  Definition seg (j : wjob) (b : list wevent) (s : wstate) : Prop :=
    asks_ok j b /\
    match w_main s with
    | MainRun => (waiting j b s /\ w_missing s <> ∅) \/ (launched j b /\ w_missing s = ∅)
    | _ => omap started b = [] \/ (launched j b)
    end.
  Definition K (tr : list wevent) (s : wstate) : Prop :=
    (Forall (fun e => is_work e = false) tr /\ omap started tr = [] /\ (w_main s = MainRun -> w_missing s = ∅)) \/
    exists j b, since_work tr j b /\ seg j b s.

  Lemma omap_none {A} (f : wevent -> option A) l : Forall (fun e => f e = None) l -> omap f l = [].
  Proof. induction 1 as [|e l He _ IH]; [done|]. cbn. by rewrite He. Qed.
  Lemma since_work_app tr j b evs : since_work tr j b -> Forall (fun e => is_work e = false) evs -> since_work (tr ++ evs) j (b ++ evs).
  Proof. intros (a & -> & Hb) He. exists a. split; [by rewrite <- app_assoc|]. by apply Forall_app. Qed.
  Lemma no_ask_elem k l : Forall (fun e => asked e = None) l -> EvAsk k ∉ l.
  Proof. intros H Hk. eapply Forall_forall in H; [|exact Hk]. done. Qed.
  Lemma no_got_elem k l : Forall (fun e => got e = None) l -> EvRecv (WProvideFile k) ∉ l.
  Proof. intros H Hk. eapply Forall_forall in H; [|exact Hk]. done. Qed.
  Lemma asks_ok_app j b evs : asks_ok j b -> Forall (fun e => asked e = None) evs -> asks_ok j (b ++ evs).
  Proof.
    intros [H1 H2] He. split; [rewrite omap_app, (omap_none _ evs He), app_nil_r; done|].
    intros k [Hk|Hk]%elem_of_app; [by apply H2|]. by apply no_ask_elem in Hk.
  Qed.
  Lemma launched_app j b evs : launched j b -> Forall (fun e => asked e = None) evs -> Forall (fun e => started e = None) evs -> launched j (b ++ evs).
  Proof.
    intros [(h & H1 & H2) H3] Ha Hs. split.
    - exists h. split; [|done]. by rewrite omap_app, (omap_none _ evs Hs), app_nil_r.
    - intros k [Hk|Hk]%elem_of_app; [apply elem_of_app; left; by apply H3|]. by apply no_ask_elem in Hk.
  Qed.
  (** Events that are neither of the job nor inputs. *)
  Lemma seg_other j b s evs s' : seg j b s -> other evs ->
    (w_main s' = w_main s /\ w_job s' = w_job s /\ w_mgr s' = w_mgr s \/ (w_main s' = MainEnd) \/ (exists p, w_main s' = MainFailed p)) ->
    w_missing s' = w_missing s -> seg j (b ++ evs) s'.
  Proof.
    intros [H1 H2] Ho Hs Hm.
    assert (Forall (fun e => asked e = None) evs /\ Forall (fun e => started e = None) evs /\ Forall (fun e => got e = None) evs) as (Ha & Hst & Hg).
    { split_and!; (eapply Forall_impl; [exact Ho|]); by intros e (? & ? & ? & ?). }
    split; [by apply asks_ok_app|].
    assert (omap started b = [] \/ launched j b -> omap started (b ++ evs) = [] \/ launched j (b ++ evs)) as Hend.
    { intros [H|H]; [left; by rewrite omap_app, H, (omap_none _ evs)|right; by apply launched_app]. }
    destruct Hs as [(Hs1 & Hs2 & Hs3)|[Hs|[p Hs]]].
    - rewrite Hs1. destruct (w_main s); [|by apply Hend..]. destruct H2 as [[H2 H3]|[H2 H3]].
      + left. rewrite Hm. split; [|done]. destruct H2 as (h & G1 & G2 & G3 & G4 & G5 & G6 & G7). exists h.
        rewrite Hs2, Hs3, Hm. split_and!; try done.
        * by rewrite omap_app, G3, (omap_none _ evs).
        * intros k. rewrite G4, !elem_of_app. pose proof (no_ask_elem k evs Ha). pose proof (no_got_elem k evs Hg). tauto.
      + right. rewrite Hm. split; [by apply launched_app|done].
    - rewrite Hs. apply Hend. destruct (w_main s); try done. destruct H2 as [[H2 _]|[H2 _]]; [|by right]. left. by destruct H2 as (h & _ & _ & ? & _).
    - rewrite Hs. apply Hend. destruct (w_main s); try done. destruct H2 as [[H2 _]|[H2 _]]; [|by right]. left. by destruct H2 as (h & _ & _ & ? & _).
  Qed.
  Lemma K_other tr s evs s' : K tr s -> other evs ->
    (w_main s' = w_main s /\ w_job s' = w_job s /\ w_mgr s' = w_mgr s \/ (w_main s' = MainEnd) \/ (exists p, w_main s' = MainFailed p)) ->
    w_missing s' = w_missing s -> K (tr ++ evs) s'.
  Proof.
    intros [(H1 & H2 & H3)|(j & b & H1 & H2)] Ho Hs Hm.
    - left. split_and!.
      + apply Forall_app. split; [done|]. eapply Forall_impl; [exact Ho|]. by intros e (? & ? & ? & ?).
      + rewrite omap_app, H2, omap_none; [done|]. eapply Forall_impl; [exact Ho|]. by intros e (? & ? & ? & ?).
      + intros Hr. rewrite Hm. destruct Hs as [(Hs & _)|[Hs|[p Hs]]]; [apply H3; congruence|congruence..].
    - right. exists j, (b ++ evs). split; [|by eapply seg_other]. apply since_work_app; [done|].
      eapply Forall_impl; [exact Ho|]. by intros e (? & ? & ? & ?).
  Qed.
  (** The manager's steps when a job runs. *)
  Lemma K_mgr tr s evs s' : J tr s -> K tr s -> is_Some (busy (w_mgr s)) -> other evs -> w_main s' = w_main s -> w_missing s' = w_missing s -> K (tr ++ evs) s'.
  Proof.
    intros HJ [(H1 & H2 & H3)|(j & b & H1 & H2)] Hb Ho Hs Hm.
    - left. split_and!.
      + apply Forall_app. split; [done|]. eapply Forall_impl; [exact Ho|]. by intros e (? & ? & ? & ?).
      + rewrite omap_app, H2, omap_none; [done|]. eapply Forall_impl; [exact Ho|]. by intros e (? & ? & ? & ?).
      + rewrite Hs, Hm. done.
    - right. exists j, (b ++ evs). split.
      { apply since_work_app; [done|]. eapply Forall_impl; [exact Ho|]. by intros e (? & ? & ? & ?). }
      assert (Forall (fun e => asked e = None) evs /\ Forall (fun e => started e = None) evs) as (Ha & Hst).
      { split_and!; (eapply Forall_impl; [exact Ho|]); by intros e (? & ? & ? & ?). }
      destruct H2 as [G1 G2]. split; [by apply asks_ok_app|]. rewrite Hs, Hm.
      assert (omap started b = [] \/ launched j b -> omap started (b ++ evs) = [] \/ launched j (b ++ evs)) as Hend.
      { intros [H|H]; [left; by rewrite omap_app, H, (omap_none _ evs)|right; by apply launched_app]. }
      destruct (w_main s); [|by apply Hend..]. destruct G2 as [[(h & _ & Hi & _) _]|[G2 G3]].
      + rewrite Hi in Hb. by destruct Hb.
      + right. split; [by apply launched_app|done].
  Qed.

  Lemma got_dec k (l : list wevent) : EvRecv (WProvideFile k) ∈ l \/ EvRecv (WProvideFile k) ∉ l.
  Proof.
    assert (EvRecv (WProvideFile k) ∈ l <-> k ∈ omap got l) as ->; [|destruct (decide (k ∈ omap got l)); auto].
    rewrite elem_of_list_omap. split; [eauto|]. intros (e & He & Hg). destruct e as [[]| | | | | | | | | |]; try done. simpl in Hg. by simplify_eq.
  Qed.
  Lemma ask_facts evs : Forall ask_event evs -> Forall (fun e => is_work e = false) evs /\ omap started evs = [] /\ Forall (fun e => got e = None) evs.
  Proof.
    intros H. split_and!; [|apply omap_none|]; (eapply Forall_impl; [exact H|]); by intros e [k ->].
  Qed.
  Lemma K_step tr s evs s' : J tr s -> K tr s -> wstep s evs s' -> K (tr ++ evs) s'.
  Proof.
    intros HJ HK Hstep. destruct Hstep as [s get stored start_ok m evs s' Hmain H|s evs s' Hmain H|s j results outs i e r lo kills m Hm Hi He H
      |s j results outs rs Hm Hr|s j outs l Hm Hq|s j outs Hm Hq Hs].
    - destruct m as [j|k| |g|l]; simpl in H.
      + unfold on_work in H. right.
        assert (forall evs, Forall (fun e => is_work e = false) evs -> since_work (tr ++ EvRecv (WWork j) :: evs) j evs) as Hsince.
        { intros evs' He. exists tr. done. }
        destruct (w_job s) as [[j' h']|] eqn:Ej.
        { simplify_eq. exists j, []. split; [by apply Hsince|]. split; [|by left]. split; [constructor|]. intros k Hk. by apply elem_of_nil in Hk. }
        assert (w_mgr s = MIdle) as Hb.
        { destruct HJ as [_ HJ]. destruct (w_mgr s) as [|j0 ? ?|j0 ?]; [done|..]; simpl in HJ; destruct HJ as (_ & _ & h & ?); by rewrite Ej in *. }
        destruct (scan (j_keys j) get 0 (group_deps (j_group j)) ∅ ∅) as [evs' r] eqn:Es.
        pose proof (scan_events _ _ _ _ _ _ _ _ Es) as (Hask & Hnd & Hin & Hfull).
        destruct (ask_facts _ Hask) as (Hw & Hst & Hg).
        assert (asks_ok j evs') as Hok. { split; [done|]. intros k Hk. by apply Hin. }
        destruct r as [[m h]|].
        2:{ simplify_eq. exists j, evs. split; [by apply Hsince|]. split; [done|]. by left. }
        destruct (Hfull m h eq_refl) as (G1 & G2 & G3 & G4 & G5 & G6).
        assert (forall f k, h !! f = Some k -> j_keys j !! f = Some k) as Hh. { intros f k Hk. by destruct (G4 f k Hk). }
        case_decide as Hmis.
        * assert (inputs_ok j h) as Hin'.
          { intros f Hf. destruct (G6 f Hf) as (k & Hk & [[k' Hk']|(fs & Hfs & _)]); [|by rewrite Hmis in Hfs].
            exists k. split; [done|]. rewrite Hk'. apply Hh in Hk'. congruence. }
          assert (forall k, EvAsk k ∉ evs') as Hno. { intros k Hk. destruct (G1 k) as [_ G]. destruct G as [x Hx]; [by right|]. by rewrite Hmis in Hx. }
          destruct (start_job start_ok _) as [evs2 s2] eqn:Est. simplify_eq. unfold start_job in Est. simpl in Est. destruct start_ok; simplify_eq.
          -- exists j, (evs' ++ [EvStart j h]). split; [apply Hsince; apply Forall_app; by split; [|repeat constructor]|].
             split; [apply asks_ok_app; [done|by repeat constructor]|]. simpl. rewrite Hmain. right. split; [|done]. split.
             ++ exists h. split; [|done]. by rewrite omap_app, Hst.
             ++ intros k [Hk|Hk]%elem_of_app; [by apply Hno in Hk|]. by apply elem_of_list_singleton in Hk.
          -- exists j, evs'. rewrite app_nil_r. split; [by apply Hsince|]. split; [done|]. by left.
        * simplify_eq. exists j, evs. split; [by apply Hsince|]. split; [done|]. simpl. rewrite Hmain. left. split; [|done].
          exists h. simpl. split_and!; try done.
          -- intros k. rewrite G1. rewrite (lookup_empty (M := gmap store_key)). pose proof (no_got_elem k evs Hg).
             split; [intros [[? ?]|?]; [done|done]|]. intros [? _]. by right.
          -- intros k fs f Hk Hf. destruct (G2 k fs f Hk Hf) as [(? & ? & _)|?]; done.
      + unfold on_provide_file in H.
        assert (forall s', w_missing s' = w_missing s -> (exists p, w_main s' = MainFailed p) -> K (tr ++ [EvRecv (WProvideFile k)]) s') as Hfail.
        { intros s'' Hmis [p Hp]. destruct HK as [(H1 & H2 & H3)|(j & b & H1 & [H2 H3])].
          - left. split_and!; [apply Forall_app; split; [done|by repeat constructor]|by rewrite omap_app, H2|congruence].
          - right. exists j, (b ++ [EvRecv (WProvideFile k)]). split; [apply since_work_app; [done|by repeat constructor]|].
            split; [apply asks_ok_app; [done|by repeat constructor]|]. rewrite Hp. rewrite Hmain in H3.
            destruct H3 as [[(h & _ & _ & H3 & _) _]|[H3 _]]; [left; by rewrite omap_app, H3|right]. apply launched_app; [done|by constructor..]. }
        destruct (negb stored). { simplify_eq. apply Hfail; [done|by eexists]. }
        destruct (w_missing s !! k) as [uuids|] eqn:Em. 2:{ simplify_eq. apply Hfail; [done|by eexists]. }
        destruct HK as [(H1 & H2 & H3)|(j & b & H1 & [H2 H3])]; [by rewrite H3 in Em|]. rewrite Hmain in H3.
        destruct H3 as [[(h & G1 & G2 & G3 & G4 & G5 & G6 & G7) Hmis]|[_ Hmis]]; [|by rewrite Hmis in Em]. rewrite G1 in H.
        set (h' := fold_left (fun h f => <[f := k]> h) uuids h) in *.
        assert (forall uuids h f, (f ∈ uuids -> fold_left (fun h f => <[f := k]> h) uuids h !! f = Some k) /\
                            (f ∉ uuids -> fold_left (fun h f => <[f := k]> h) uuids h !! f = (h : gmap file_uuid store_key) !! f)) as Hfold.
        { clear. intros uuids. induction uuids as [|x uuids IH]; intros h f; simpl; [split; [intros Hf; by apply elem_of_nil in Hf|done]|].
          destruct (IH (<[x := k]> h) f) as [IH1 IH2]. split.
          - intros Hf. destruct (decide (f ∈ uuids)) as [Hf'|Hf']; [by apply IH1|]. rewrite IH2 by done.
            apply elem_of_cons in Hf as [->|?]; [by rewrite lookup_insert|done].
          - intros Hf. apply not_elem_of_cons in Hf as [? ?]. rewrite IH2 by done. by rewrite lookup_insert_ne. }
        assert (forall f k', h' !! f = Some k' -> j_keys j !! f = Some k') as Hh'.
        { intros f k' Hf. destruct (decide (f ∈ uuids)) as [Hin|Hin].
          - unfold h' in Hf. rewrite (proj1 (Hfold uuids h f)) in Hf by done. simplify_eq. by eapply G5.
          - unfold h' in Hf. rewrite (proj2 (Hfold uuids h f)) in Hf by done. by apply G6. }
        assert (forall f, f ∈ group_deps (j_group j) -> exists k', j_keys j !! f = Some k' /\
          (is_Some (h' !! f) \/ exists fs, delete k (w_missing s) !! k' = Some fs /\ f ∈ fs)) as Hcover.
        { intros f Hf. destruct (G7 f Hf) as (k' & Hk' & [Hs'|(fs & Hfs & Hin)]).
          - exists k'. split; [done|]. left. unfold h'. destruct (decide (f ∈ uuids)) as [Hin|Hin];
              [rewrite (proj1 (Hfold uuids h f)) by done; eauto|by rewrite (proj2 (Hfold uuids h f))].
          - exists k'. split; [done|]. destruct (decide (k' = k)) as [->|Hne].
            + left. simplify_eq. unfold h'. rewrite (proj1 (Hfold uuids h f)) by done. eauto.
            + right. exists fs. split; [|done]. by rewrite lookup_delete_ne. }
        assert (forall k', is_Some (delete k (w_missing s) !! k') <-> EvAsk k' ∈ b ++ [EvRecv (WProvideFile k)] /\ EvRecv (WProvideFile k') ∉ b ++ [EvRecv (WProvideFile k)]) as Hmiss.
        { intros k'. rewrite !elem_of_app, !elem_of_list_singleton. destruct (decide (k' = k)) as [->|Hne].
          - rewrite lookup_delete. split; [by intros [? ?]|]. intros [_ Hn]. exfalso. apply Hn. by right.
          - rewrite lookup_delete_ne, G4 by done. split; [intros [? ?]; split; [by left|intros [?|?]; [done|by simplify_eq]]|].
            intros [[?|?] Hn]; [|done]. split; [done|]. intros ?. apply Hn. by left. }
        right. case_decide as Hempty.
        * unfold start_job in H. simpl in H. destruct start_ok; simplify_eq.
          -- exists j, (b ++ [EvRecv (WProvideFile k); EvStart j h']). split; [apply since_work_app; [done|by repeat constructor]|].
             split; [apply asks_ok_app; [done|by repeat constructor]|]. simpl. rewrite Hmain. right. split; [|done]. split.
             ++ exists h'. split; [by rewrite omap_app, G3|]. intros f Hf. destruct (Hcover f Hf) as (k' & Hk' & [[k2 Hk2]|(fs & Hfs & _)]).
                ** exists k'. split; [done|]. rewrite Hk2. apply Hh' in Hk2. congruence.
                ** by rewrite Hempty in Hfs.
             ++ intros k' [Hk|Hk]%elem_of_app.
                ** destruct (got_dec k' (b ++ [EvRecv (WProvideFile k)])) as [Hd|Hd].
                   { set_solver. }
                   exfalso. assert (is_Some (delete k (w_missing s) !! k')) as [x Hx]. { apply Hmiss. split; [|done]. apply elem_of_app. by left. }
                   by rewrite Hempty in Hx.
                ** set_solver.
          -- exists j, (b ++ [EvRecv (WProvideFile k)]). split; [apply since_work_app; [done|by repeat constructor]|].
             split; [apply asks_ok_app; [done|by repeat constructor]|]. simpl. left. by rewrite omap_app, G3.
        * simplify_eq. exists j, (b ++ [EvRecv (WProvideFile k)]). split; [apply since_work_app; [done|by repeat constructor]|].
          split; [apply asks_ok_app; [done|by repeat constructor]|]. simpl. rewrite Hmain. left. split; [|done].
          exists h'. simpl. split_and!; try done.
          -- by rewrite omap_app, G3.
          -- intros k' fs f Hk' Hf. apply lookup_delete_Some in Hk' as [_ Hk']. by eapply G5.
      + simplify_eq. apply (K_other tr s); [done|by repeat constructor|by right; left|done].
      + unfold on_kill_job in H.
        assert (s' = s /\ other evs) as [-> Ho].
        { destruct (w_job s) as [[j h]|]; [|simplify_eq; split; [done|constructor]]. destruct (w_boxes s) as [n|]; [|simplify_eq; split; [done|constructor]].
          simplify_eq. split; [done|]. case_decide; [by apply Forall_fmap, Forall_true|constructor]. }
        apply (K_other tr s); [done|constructor; [done|exact Ho]|by left|done].
      + unfold on_ask_files in H. destruct (w_sender s); simplify_eq.
        * apply (K_other tr s); [done|by repeat constructor|by left|done].
        * apply (K_other tr s'); [done|by repeat constructor|by left|done].
    - unfold on_closed in H. simplify_eq. apply (K_other tr s); [done| |by right; left|done]. constructor; [done|].
      destruct (w_boxes s); [by apply Forall_fmap, Forall_true|constructor].
    - unfold on_report in H. destruct (get_result_outputs _ _ _ _ _) as [outs' st]. simplify_eq.
      apply (K_mgr tr s); try done; [by rewrite Hm|]. constructor; [done|]. destruct (is_success _); [constructor|]. by apply Forall_fmap, Forall_true.
    - apply (K_mgr tr s); try done; [by rewrite Hm|]. by repeat constructor.
    - apply (K_mgr tr s); try done; [by rewrite Hm|]. apply Forall_app. split; [|by repeat constructor].
      clear. unfold provide. induction l as [|f l IH]; [constructor|]. cbn. destruct (outs !! f); [|exact IH]. constructor; [done|exact IH].
    - apply (K_mgr tr s); try done; [by rewrite Hm|]. by repeat constructor.
  Qed.
  Lemma K_reach tr s : wreach tr s -> K tr s.
  Proof.
    induction 1 as [|tr s evs s' Hr IH Hs]; [left; split_and!; try done; by repeat constructor|].
    eapply K_step; [|done..]. by eapply J_reach.
  Qed.
End proofs.
