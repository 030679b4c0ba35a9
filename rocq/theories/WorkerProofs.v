(** * WorkerProofs: invariants of the worker *)
From Verif Require Import WorkerSpec.

Section proofs.
  Context (empty_key : store_key).
  Local Notation wstep := (wstep empty_key). Local Notation wreach := (wreach empty_key).

  (** ** Counting *)
  Lemma count_app p a b : count p (a ++ b) = count p a + count p b.
  Proof. unfold count. by rewrite List.filter_app, app_length. Qed.
  Lemma count_none p l : Forall (fun e => p e = false) l -> count p l = 0.
  Proof. unfold count. induction 1 as [|e l He _ IH]; simpl; [done|]. by rewrite He. Qed.
  Lemma running_app a b : running (a ++ b) = fold_left (fun r e => match e with EvStart j _ => Some j | EvGetWork | EvDropped => None | _ => r end) b (running a).
  Proof. unfold running. by rewrite fold_left_app. Qed.
  Definition quiet (e : wevent) : Prop :=
    match e with EvStart _ _ | EvGetWork | EvDropped => False | EvRecv (WWork _) => False | _ => True end.
  Lemma running_quiet a b : Forall quiet b -> running (a ++ b) = running a.
  Proof.
    rewrite running_app. generalize (running a). induction 1 as [|e b He _ IH] in |- *; intros; simpl; [done|].
    destruct e; try done; apply IH.
  Qed.
  Lemma quiet_stops n : Forall quiet (map EvStopKill (seq 0 n)).
  Proof. by apply Forall_fmap, Forall_true. Qed.

  (** ** The scan of the dependencies *)
  Definition ask_event (e : wevent) : Prop := exists k, e = EvAsk k.
  Lemma scan_events keys get n deps missing handles evs r :
    scan keys get n deps missing handles = (evs, r) ->
    Forall ask_event evs /\ NoDup (omap asked evs) /\
    (forall k, EvAsk k ∈ evs -> missing !! k = None /\ exists f, f ∈ deps /\ keys !! f = Some k) /\
    (forall m h, r = Some (m, h) ->
       (forall k, is_Some (m !! k) <-> is_Some (missing !! k) \/ EvAsk k ∈ evs) /\
       (forall k fs f, m !! k = Some fs -> f ∈ fs -> (exists fs', missing !! k = Some fs' /\ f ∈ fs') \/ (f ∈ deps /\ keys !! f = Some k)) /\
       (forall k fs', missing !! k = Some fs' -> exists fs, m !! k = Some fs /\ forall f, f ∈ fs' -> f ∈ fs) /\
       (forall f k, h !! f = Some k -> handles !! f = Some k \/ keys !! f = Some k) /\
       (forall f, is_Some (handles !! f) -> is_Some (h !! f)) /\
       (forall f, f ∈ deps -> exists k, keys !! f = Some k /\ (is_Some (h !! f) \/ exists fs, m !! k = Some fs /\ f ∈ fs))).
  Proof.
    revert n missing handles evs r. induction deps as [|f deps IH]; intros n missing handles evs r H; simpl in H.
    - simplify_eq. split_and!; [constructor|constructor|intros k Hk; by apply elem_of_nil in Hk|].
      intros m h [= <- <-]. split_and!.
      + intros k. split; [by left|]. intros [?|Hk]; [done|by apply elem_of_nil in Hk].
      + intros k fs f H1 H2. left. eauto.
      + intros k fs' Hk. exists fs'. done.
      + intros f k Hk. by left.
      + done.
      + intros f Hf. by apply elem_of_nil in Hf.
    - destruct (keys !! f) as [k0|] eqn:Ek.
      2:{ simplify_eq. split_and!; [constructor|constructor|intros k Hk; by apply elem_of_nil in Hk|done]. }
      destruct (get n).
      + apply IH in H as (H1 & H2 & H3 & H4). split_and!; [done|done| |].
        * intros k Hk. destruct (H3 k Hk) as (? & f' & ? & ?). split; [done|]. exists f'. split; [by right|done].
        * intros m h ->. destruct (H4 m h eq_refl) as (G1 & G2 & G3 & G4 & G5 & G6). split_and!.
          -- done.
          -- intros k fs f' Hm Hf. destruct (G2 k fs f' Hm Hf) as [?|[? ?]]; [by left|]. right. split; [by right|done].
          -- done.
          -- intros f' k Hk. destruct (G4 f' k Hk) as [Hi|?]; [|by right].
             apply lookup_insert_Some in Hi as [[<- <-]|[_ ?]]; [by right|by left].
          -- intros f' Hf'. apply G5. destruct (decide (f = f')) as [->|]; [rewrite lookup_insert; eauto|by rewrite lookup_insert_ne].
          -- intros f' [->|Hf']%elem_of_cons; [|by apply G6]. exists k0. split; [done|]. left. apply G5. rewrite lookup_insert. eauto.
      + destruct (scan keys get (S n) deps (<[k0:=default [] (missing !! k0) ++ [f]]> missing) handles) as [evs' r'] eqn:Es.
        apply IH in Es as (H1 & H2 & H3 & H4). simplify_eq.
        assert (forall k, EvAsk k ∈ evs' -> k <> k0 /\ missing !! k = None) as Hne.
        { intros k Hk. destruct (H3 k Hk) as (Hm & _). apply lookup_insert_None in Hm as [? ?]. done. }
        split_and!.
        * apply Forall_app. split; [|done]. destruct (missing !! k0); repeat constructor. by exists k0.
        * rewrite omap_app. apply NoDup_app. split_and!; [destruct (missing !! k0); [constructor|apply NoDup_singleton]| |done].
          intros k Hk Hk'. apply elem_of_list_omap in Hk' as (e & He & Hae). destruct e; try done. simpl in Hae. simplify_eq.
          destruct (Hne k He) as [Hk0 _]. destruct (missing !! k0); [by apply elem_of_nil in Hk|]. apply elem_of_list_singleton in Hk. done.
        * intros k [Hk|Hk]%elem_of_app.
          -- destruct (missing !! k0) eqn:Em; [by apply elem_of_nil in Hk|]. apply elem_of_list_singleton in Hk. simplify_eq.
             split; [done|]. exists f. split; [by left|done].
          -- destruct (H3 k Hk) as (_ & f' & ? & ?). split; [by apply Hne|]. exists f'. split; [by right|done].
        * intros m h ->. destruct (H4 m h eq_refl) as (G1 & G2 & G3 & G4 & G5 & G6). split_and!.
          -- intros k. rewrite G1. rewrite elem_of_app. destruct (decide (k = k0)) as [->|Hk].
             ++ rewrite lookup_insert. split; [|eauto]. intros _. destruct (missing !! k0); [by eauto|]. right. left. by left.
             ++ rewrite lookup_insert_ne by done. split; [tauto|]. intros [?|[Hx|?]]; [by left| |by right].
                destruct (missing !! k0); [by apply elem_of_nil in Hx|]. apply elem_of_list_singleton in Hx. by simplify_eq.
          -- intros k fs f' Hm Hf. destruct (G2 k fs f' Hm Hf) as [(fs' & Hfs & Hin)|[? ?]]; [|right; split; [by right|done]].
             apply lookup_insert_Some in Hfs as [[<- <-]|[_ ?]]; [|by eauto].
             apply elem_of_app in Hin as [Hin|Hin%elem_of_list_singleton].
             ++ destruct (missing !! k0) as [l|] eqn:Em; simpl in Hin; [eauto|by apply elem_of_nil in Hin].
             ++ subst. right. split; [by left|done].
          -- intros k fs' Hk. destruct (decide (k = k0)) as [->|Hkne].
             ++ destruct (G3 k0 (default [] (missing !! k0) ++ [f])) as (fs & Hfs & Hsub); [by rewrite lookup_insert|].
                exists fs. split; [done|]. intros f' Hf'. apply Hsub. rewrite Hk. simpl. apply elem_of_app. by left.
             ++ apply G3. by rewrite lookup_insert_ne.
          -- done.
          -- done.
          -- intros f' [->|Hf']%elem_of_cons; [|by apply G6]. exists k0. split; [done|]. right.
             destruct (G3 k0 (default [] (missing !! k0) ++ [f])) as (fs & Hfs & Hsub); [by rewrite lookup_insert|].
             exists fs. split; [done|]. apply Hsub. apply elem_of_app. right. by left.
  Qed.
  Lemma ask_quiet evs : Forall ask_event evs -> Forall quiet evs.
  Proof. intros H. eapply Forall_impl; [exact H|]. by intros e [k ->]. Qed.

  (** ** The manager and what runs *)
  Definition busy (m : mgr) : option wjob := match m with MIdle => None | MRun j _ _ | MWait j _ => Some j end.
  Definition J (tr : list wevent) (s : wstate) : Prop :=
    running tr = busy (w_mgr s) /\
    match busy (w_mgr s) with
    | None => w_boxes s = None
    | Some j => w_boxes s = Some (length (g_execs (j_group j))) /\ w_missing s = ∅ /\ exists h, w_job s = Some (j, h)
    end.

  Lemma J_quiet tr evs s s' : J tr s -> Forall quiet evs -> busy (w_mgr s') = busy (w_mgr s) -> w_boxes s' = w_boxes s ->
    (is_Some (busy (w_mgr s)) -> w_missing s' = w_missing s /\ w_job s' = w_job s) -> J (tr ++ evs) s'.
  Proof.
    intros [H1 H2] Hq Hb Hx Hm. split; [by rewrite running_quiet, H1|]. rewrite Hb, Hx. destruct (busy (w_mgr s)); [|done].
    destruct Hm as [-> ->]; [eauto|]. done.
  Qed.
  Lemma start_job_J tr s evs0 ok evs s' : running tr = None -> busy (w_mgr s) = None -> w_boxes s = None -> w_missing s = ∅ ->
    Forall quiet evs0 -> start_job ok s = (evs, s') -> J (tr ++ evs0 ++ evs) s'.
  Proof.
    intros H1 H2 H3 H4 Hq H. unfold start_job in H. destruct (w_job s) as [[j h]|] eqn:Ej.
    - destruct ok; simplify_eq.
      + split; simpl; [|by eauto]. rewrite app_assoc, running_app. done.
      + split; simpl; [|by rewrite H2]. rewrite app_nil_r, running_quiet by done. by rewrite H1, H2.
    - simplify_eq. split; simpl; [|by rewrite H2]. rewrite app_nil_r, running_quiet by done. by rewrite H1, H2.
  Qed.
  Lemma running_recv tr m : running (tr ++ [EvRecv m]) = running tr.
  Proof. by rewrite running_app. Qed.

  Lemma J_step tr s evs s' : J tr s -> wstep s evs s' -> J (tr ++ evs) s'.
  Proof.
    intros HJ Hstep. destruct Hstep as [s get stored start_ok m evs s' Hmain H|s evs s' Hmain H|s j results outs i e r lo kills m Hm Hi He H
      |s j results outs rs Hm Hr|s j outs l Hm Hq|s j outs Hm Hq Hs].
    - change (EvRecv m :: evs) with ([EvRecv m] ++ evs). rewrite app_assoc.
      assert (J (tr ++ [EvRecv m]) s) as HJ'. { destruct HJ as [H1 H2]. split; [by rewrite running_recv|done]. }
      generalize dependent (tr ++ [EvRecv m]). clear HJ tr. intros tr HJ.
      destruct m as [j|k| |g|l]; simpl in H.
      + unfold on_work in H. destruct (w_job s) as [[j' h']|] eqn:Ej.
        { simplify_eq. apply (J_quiet _ _ s); try done. }
        assert (busy (w_mgr s) = None) as Hb.
        { destruct HJ as [_ HJ]. destruct (busy (w_mgr s)); [|done]. destruct HJ as (_ & _ & h & ?). by rewrite Ej in *. }
        destruct (scan (j_keys j) get 0 (group_deps (j_group j)) ∅ ∅) as [evs' [[m h]|]] eqn:Es;
          pose proof (scan_events _ _ _ _ _ _ _ _ Es) as (Hask & _); apply ask_quiet in Hask.
        2:{ simplify_eq. by apply (J_quiet _ _ s). }
        case_decide as Hmis.
        * destruct (start_job start_ok _) as [evs2 s2] eqn:Est. simplify_eq.
          destruct HJ as [H1 H2]. rewrite Hb in *. eapply start_job_J; [..|exact Est]; simpl; try done.
        * simplify_eq. apply (J_quiet _ _ s); try done. rewrite Hb. by intros [? ?].
      + unfold on_provide_file in H. destruct (negb stored). { simplify_eq. apply (J_quiet _ _ s); try done. }
        destruct (w_missing s !! k) as [uuids|] eqn:Em. 2:{ simplify_eq. apply (J_quiet _ _ s); try done. }
        assert (busy (w_mgr s) = None) as Hb.
        { destruct HJ as [_ HJ]. destruct (busy (w_mgr s)); [|done]. destruct HJ as (_ & HJ & _). by rewrite HJ in Em. }
        destruct (w_job s) as [[j h]|] eqn:Ej. 2:{ simplify_eq. apply (J_quiet _ _ s); try done. }
        destruct HJ as [H1 H2]. rewrite Hb in *. case_decide as Hmis.
        * eapply (start_job_J _ _ []) in H; simpl in *; try done. 
        * simplify_eq. split; simpl; rewrite ?app_nil_r, ?Hb; done.
      + simplify_eq. apply (J_quiet _ _ s); try done.
      + unfold on_kill_job in H. destruct (w_job s) as [[j h]|]; [|simplify_eq; apply (J_quiet _ _ s'); done].
        destruct (w_boxes s) as [n|]; [|simplify_eq; apply (J_quiet _ _ s'); done].
        simplify_eq. apply (J_quiet _ _ s'); try done. case_decide; [apply quiet_stops|constructor].
      + unfold on_ask_files in H. destruct (w_sender s); simplify_eq; apply (J_quiet _ _ s) || apply (J_quiet _ _ s'); done.
    - unfold on_closed in H. simplify_eq. apply (J_quiet _ _ s); try done. constructor; [done|].
      destruct (w_boxes s); [apply quiet_stops|constructor].
    - unfold on_report in H. destruct (get_result_outputs _ _ _ _ _) as [outs' st]. simplify_eq.
      apply (J_quiet _ _ s); try done; [|by simpl; rewrite Hm]. constructor; [done|].
      destruct (is_success _); [constructor|]. by apply Forall_fmap, Forall_true.
    - apply (J_quiet _ _ s); try done; [by repeat constructor|by simpl; rewrite Hm].
    - split; [|done]. rewrite app_assoc, running_app. done.
    - split; [|done]. by rewrite running_app.
  Qed.
  Lemma J_reach tr s : wreach tr s -> J tr s.
  Proof. induction 1 as [|tr s evs s' _ IH Hs]; [done|]. by eapply J_step. Qed.
End proofs.
