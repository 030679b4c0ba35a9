(** The functions of the scheduler are total (under [core]) and are sequences of [istep]s. *)
From Verif Require Import SchedSpec SchedSteps CheckDagProofs CheckDagProofs2.

Local Arguments mu : simpl never.

Definition walks (x : cfg) (r : res state) (L' : list (client_uuid * group_uuid)) (P' : list (client_uuid * file_uuid)) : Prop :=
  exists s', r = ROk s' /\ rtc istep x (Cfg L' P' s').

Lemma ok_file_mono d c f l l' : ok_file d c f l -> ok_file d c f (l ++ l').
Proof.
  intros [[k H]|(g&gr&fc&r&o&H1&H2&H3&H4)]; [left; exists k; apply elem_of_app; by left|right].
  exists g, gr, fc, r, o. rewrite elem_of_app. auto.
Qed.
Lemma bad_file_mono d c f l l' : bad_file d c f l -> bad_file d c f (l ++ l').
Proof.
  intros (g&gr&H1&H2&H3). exists g, gr. split; [done|]. split; [done|]. rewrite elem_of_app.
  destruct H3 as [|(fc&r&o&x&?&?&?)]; [auto|]. right. exists fc, r, o, x. rewrite elem_of_app. auto.
Qed.
Lemma ok_file_step x x' d c f : rtc istep x x' -> ok_file d c f (s_log (x_s x)) -> ok_file d c f (s_log (x_s x')).
Proof. intros H. destruct (isteps_log _ _ H) as [l ->]. apply ok_file_mono. Qed.
Lemma bad_file_step x x' d c f : rtc istep x x' -> bad_file d c f (s_log (x_s x)) -> bad_file d c f (s_log (x_s x')).
Proof. intros H. destruct (isteps_log _ _ H) as [l ->]. apply bad_file_mono. Qed.

Lemma send_file_clients c f ok s : s_clients (send_file c f ok s) = s_clients s.
Proof. unfold send_file. destruct (s_clients s !! c); [|done]. case_bool_decide; [|done]. by destruct (cl_handles c0 !! f). Qed.
Lemma send_file_queue c f ok s : s_queue (send_file c f ok s) = s_queue s.
Proof. unfold send_file. destruct (s_clients s !! c); [|done]. case_bool_decide; [|done]. by destruct (cl_handles c0 !! f). Qed.
Lemma send_file_steps L P c f (ok : bool) s :
  (forall cl, s_clients s !! c = Some cl ->
     if ok then ok_file (cl_dag cl) c f (s_log s) else bad_file (cl_dag cl) c f (s_log s)) ->
  rtc istep (Cfg L P s) (Cfg L P (send_file c f ok s)).
Proof.
  intros H. unfold send_file. destruct (s_clients s !! c) as [cl|] eqn:Ec; [|done].
  case_bool_decide as Hf; [|done]. destruct (cl_handles cl !! f) as [k|] eqn:Ek; [|done].
  apply rtc_once. apply is_file; try done. exact (H cl eq_refl).
Qed.

(** ** [file_failed] *)
Lemma missing_of_input x c cl g M f : core x -> s_clients (x_s x) !! c = Some cl -> cl_missing cl !! g = Some M -> f ∈ M ->
  exists gs, cl_input_of cl !! f = Some gs /\ g ∈ gs.
Proof.
  intros Hc Hcl HM Hf. apply (co_io _ Hc c cl Hcl). destruct (co_wait _ Hc c cl Hcl g M HM) as (gr&?&?&?&?). eauto.
Qed.
Lemma core_lookup x c cl g gr : core x -> s_clients (x_s x) !! c = Some cl ->
  alookup g (d_groups (cl_dag cl)) = Some gr <-> (g, gr) ∈ d_groups (cl_dag cl).
Proof. intros Hc Hcl. apply groups_dec. by eapply co_dag. Qed.

Lemma skip_fold L c f l : forall s failed P cl,
  core (Cfg L P s) -> s_clients s !! c = Some cl -> bad_file (cl_dag cl) c f (s_log s) ->
  (forall g, g ∈ l -> exists gr, (g, gr) ∈ d_groups (cl_dag cl) /\ f ∈ group_deps gr) ->
  exists s' new cl', rfold (skip_one c) l (s, failed) = ROk (s', failed ++ new) /\
    rtc istep (Cfg L P s) (Cfg L (map (pair c) new ++ P) s') /\
    (new <> [] -> mu s' < mu s) /\
    s_clients s' !! c = Some cl' /\ static cl' = static cl /\
    (forall g M, cl_missing cl' !! g = Some M -> cl_missing cl !! g = Some M /\ g ∉ l) /\
    (forall f', f' ∈ new -> bad_file (cl_dag cl) c f' (s_log s')).
Proof.
  induction l as [|g l IH]; intros s failed P cl Hcore Hcl Hb Hin.
  - exists s, [], cl. simpl. rewrite app_nil_r. split; [done|]. split; [done|]. split; [done|].
    split; [done|]. split; [done|]. split; [|set_solver]. intros; split; [done|apply not_elem_of_nil].
  - simpl. rewrite Hcl. destruct (cl_missing cl !! g) as [M|] eqn:EM.
    + destruct (Hin g ltac:(left)) as (gr&Hgr&Hf).
      rewrite (proj2 (core_lookup _ _ _ _ _ Hcore Hcl) Hgr). simpl.
      assert (Hst : istep (Cfg L P s) (Cfg L (map (pair c) (group_outputs gr) ++ P) (skip_state c cl g gr s)))
        by (by eapply is_skipped).
      set (cl1 := set_missing (delete g (cl_missing cl)) cl).
      assert (Hcl1 : s_clients (skip_state c cl g gr s) !! c = Some cl1) by apply lookup_insert.
      destruct (IH (skip_state c cl g gr s) (failed ++ group_outputs gr) (map (pair c) (group_outputs gr) ++ P) cl1)
        as (s'&new&cl'&Hr&Hst'&Hmu&Hcl'&Hs&Hm&Hbad).
      { by eapply istep_core. } { done. } { by apply bad_file_mono. } { intros g' Hg'. apply Hin. by right. }
      exists s', (group_outputs gr ++ new), cl'.
      rewrite app_assoc. split; [exact Hr|]. split.
      { eapply rtc_l; [exact Hst|]. eapply rtc_r; [exact Hst'|]. apply is_padd. rewrite map_app. set_solver. }
      split.
      { intros _. assert (mu s' <= mu (skip_state c cl g gr s)) by apply (isteps_mu _ _ Hst').
        pose proof (mu_upd s (skip_state c cl g gr s) c cl _ Hcl eq_refl) as Hu. simpl in Hu.
        pose proof (size_delete_missing _ _ _ EM). lia. }
      split; [done|]. split; [done|]. split.
      { intros g' M' Hg'. apply Hm in Hg' as [Hg' Hni]. simpl in Hg'. rewrite lookup_delete_Some in Hg'.
        destruct Hg'. split; [done|]. rewrite elem_of_cons. naive_solver. }
      intros f' Hf'. apply elem_of_app in Hf' as [Hf'|Hf']; [|by apply Hbad].
      eapply (bad_file_step _ _ _ _ _ Hst'). simpl. exists g, gr. split; [done|]. split; [done|]. left.
      apply elem_of_app. right. left.
    + simpl. destruct (IH s failed P cl) as (s'&new&cl'&Hr&Hst'&Hmu&Hcl'&Hs&Hm&Hbad); try done.
      { intros g' Hg'. apply Hin. by right. }
      exists s', new, cl'. split; [done|]. split; [done|]. split; [done|]. split; [done|]. split; [done|].
      split; [|done]. intros g' M' Hg'. apply Hm in Hg' as [Hg' Hni]. split; [done|].
      rewrite elem_of_cons. intros [->|?]; [congruence|done].
Qed.

Lemma tick_clients s : s_clients (tick s) = s_clients s. Proof. done. Qed.
Lemma mu_tick s : mu (tick s) = mu s. Proof. done. Qed.
Lemma mu_send_file c f ok s : mu (send_file c f ok s) = mu s.
Proof. apply mu_same; [apply send_file_clients|by rewrite send_file_queue]. Qed.

Lemma file_failed_walk env fuel : env_ok env -> forall L P c f s,
  core (Cfg L P s) -> mu s <= fuel ->
  (forall cl, s_clients s !! c = Some cl -> bad_file (cl_dag cl) c f (s_log s)) ->
  walks (Cfg L ((c, f) :: P) s) (file_failed env fuel c f s) L P.
Proof.
  intros Henv. induction fuel as [|fuel IH]; intros L P c f s Hcore Hmu Hbad.
  all: assert (Hsf : rtc istep (Cfg L ((c, f) :: P) s) (Cfg L ((c, f) :: P) (send_file c f false s)))
        by (by apply send_file_steps).
  all: assert (Hcore1 : core (Cfg L ((c, f) :: P) (send_file c f false s)))
        by (eapply isteps_core; [|exact Hsf]; eapply core_sub; eauto).
  all: unfold walks; simpl; rewrite send_file_clients.
  all: destruct (s_clients s !! c) as [cl|] eqn:Ecl;
    [|exists (send_file c f false s); split; [done|]; eapply rtc_r; [exact Hsf|]; apply is_pdrop;
      rewrite send_file_clients; intros; congruence].
  all: specialize (Hbad cl eq_refl).
  all: assert (Ecl' : s_clients (send_file c f false s) !! c = Some cl) by (by rewrite send_file_clients).
  all: destruct (cl_input_of cl !! f) as [gs|] eqn:Egs;
    [|exists (send_file c f false s); split; [done|]; eapply rtc_r; [exact Hsf|]; apply is_pdrop;
      intros cl0 g M Hcl0 HM Hf; destruct (missing_of_input _ c cl0 g M f Hcore1 Hcl0 HM Hf) as (?&?&?);
      simpl in *; congruence].
  all: set (s1 := send_file c f false s) in *.
  all: assert (Hst1 : istep (Cfg L ((c, f) :: P) s1) (Cfg L ((c, f) :: P) (tick s1))) by constructor.
  all: destruct (skip_fold L c f (e_ord env (s_tick s1) _ (elements gs)) (tick s1) [] ((c, f) :: P) cl)
    as (s'&new&cl'&Hr&Hst'&Hmu'&Hcl'&Hstat&Hm&Hb');
    [by eapply istep_core|done|by eapply (bad_file_step _ _ _ _ _ Hsf)| |].
  1,3: intros g Hg; rewrite (eo_ord _ Henv), elem_of_elements in Hg; apply (co_io _ Hcore1 c cl Ecl'); eauto.
  all: rewrite Hr; simpl.
  all: assert (Hdrop : rtc istep (Cfg L ((c, f) :: P) s) (Cfg L (map (pair c) new ++ P) s')).
  1,3: eapply rtc_transitive; [exact Hsf|]; eapply rtc_l; [exact Hst1|];
      eapply rtc_transitive; [exact Hst'|]; eapply rtc_l; [apply (is_padd _ _ ((c, f) :: map (pair c) new ++ P)); set_solver|];
      apply rtc_once, is_pdrop; intros cl0 g M Hcl0 HM Hf; rewrite Hcl' in Hcl0; injection Hcl0 as <-;
      apply Hm in HM as [HM Hni]; apply Hni; rewrite (eo_ord _ Henv), elem_of_elements;
      destruct (missing_of_input _ c cl g M f Hcore1 Ecl' HM Hf) as (gs'&E'&?); simpl in *; congruence.
  all: destruct new as [|n0 new]; [by exists s'|].
  - specialize (Hmu' ltac:(done)). unfold s1 in Hmu'. rewrite mu_tick, mu_send_file in Hmu'. lia.
  - specialize (Hmu' ltac:(done)). unfold s1 in Hmu'. rewrite mu_tick, mu_send_file in Hmu'.
    assert (Hrec : forall l s0, core (Cfg L (map (pair c) l ++ P) s0) -> mu s0 <= fuel ->
      (forall f' cl0, f' ∈ l -> s_clients s0 !! c = Some cl0 -> bad_file (cl_dag cl0) c f' (s_log s0)) ->
      walks (Cfg L (map (pair c) l ++ P) s0) (rfold (fun s f => file_failed env fuel c f s) l s0) L P).
    { intros l. induction l as [|f0 l IHl]; intros s0 Hc0 Hmu0 Hb0; [by exists s0|].
      simpl. destruct (IH L (map (pair c) l ++ P) c f0 s0) as (s2&E2&Hst2).
      { eapply core_sub; eauto. } { done. } { intros cl0 Hcl0. apply Hb0; [left|done]. }
      rewrite E2. simpl. destruct (IHl s2) as (s3&E3&Hst3).
      - eapply isteps_core; [|exact Hst2]. done.
      - etrans; [|exact Hmu0]. apply (isteps_mu _ _ Hst2).
      - intros f' cl0 Hf' Hcl0. apply isteps_grows in Hst2 as Hg2. destruct (grows_bwd _ _ _ _ Hg2 Hcl0) as (cl1&Hcl1&Hs1&_).
        rewrite (static_dag _ _ Hs1). apply (bad_file_step _ _ _ _ _ Hst2). apply Hb0; [by right|done].
      - exists s3. split; [done|]. eapply rtc_transitive; [exact Hst2|done]. }
    destruct (Hrec (n0 :: new) s') as (s2&E2&Hst2).
    + eapply isteps_core; [|exact Hdrop]. eapply (core_sub _ _ Hcore); done.
    + lia.
    + intros f' cl0 Hf' Hcl0. rewrite Hcl' in Hcl0. injection Hcl0 as <-. rewrite (static_dag _ _ Hstat). by apply Hb'.
    + exists s2. split; [done|]. eapply rtc_transitive; [exact Hdrop|done].
Qed.

(** ** [file_success] *)
Lemma enable_fold L P c f l : forall s cl,
  core (Cfg L P s) -> s_clients s !! c = Some cl -> ok_file (cl_dag cl) c f (s_log s) -> is_Some (cl_handles cl !! f) ->
  (forall g, g ∈ l -> exists gr, (g, gr) ∈ d_groups (cl_dag cl) /\ f ∈ group_deps gr) ->
  exists s' cl', rfold (enable_one c f) l s = ROk s' /\ rtc istep (Cfg L P s) (Cfg L P s') /\
    s_clients s' !! c = Some cl' /\ static cl' = static cl /\
    (forall g M, cl_missing cl' !! g = Some M ->
       (exists M0, cl_missing cl !! g = Some M0 /\ M ⊆ M0) /\ (g ∈ l -> f ∉ M)).
Proof.
  induction l as [|g l IH]; intros s cl Hcore Hcl Hok Hh Hin.
  - exists s, cl. split; [done|]. split; [done|]. split; [done|]. split; [done|].
    intros g M HM. split; [eauto|]. intros Hx. by apply not_elem_of_nil in Hx.
  - simpl. unfold enable_one at 1. rewrite Hcl. destruct (Hin g ltac:(left)) as (gr&Hgr&Hf).
    rewrite (proj2 (core_lookup _ _ _ _ _ Hcore Hcl) Hgr).
    assert (Hin' : forall g, g ∈ l -> exists gr, (g, gr) ∈ d_groups (cl_dag cl) /\ f ∈ group_deps gr)
      by (intros; apply Hin; by right).
    destruct (cl_missing cl !! g) as [M|] eqn:EM; [case_bool_decide as He|]; simpl.
    + assert (Hst : istep (Cfg L P s) (Cfg L P (enable_state c cl g gr s))).
      { eapply is_enable; eauto. intros z Hz. apply elem_of_singleton. destruct (decide (z = f)) as [|]; [done|].
        exfalso. apply (not_elem_of_empty (C:=gset positive) z). rewrite <- He. set_solver. }
      set (cl1 := set_ready ({[g]} ∪ cl_ready cl) (set_missing (delete g (cl_missing cl)) cl)).
      destruct (IH (enable_state c cl g gr s) cl1) as (s'&cl'&Hr&Hst'&Hcl'&Hs&Hm); try done.
      { by eapply istep_core. } { apply lookup_insert. }
      exists s', cl'. split; [exact Hr|]. split; [by eapply rtc_l|]. split; [done|]. split; [done|].
      intros g' M' Hg'. destruct (Hm g' M' Hg') as [(M0&H0&Hs0) Hni]. simpl in H0. apply lookup_delete_Some in H0 as [Hne H0].
      split; [eauto|]. rewrite elem_of_cons. intros [->|?]; [done|auto].
    + set (cl1 := set_missing (<[g:=M ∖ {[f]}]> (cl_missing cl)) cl).
      assert (Hst : istep (Cfg L P s) (Cfg L P (upd_client c cl1 s))) by (eapply is_shrink; eauto).
      destruct (IH (upd_client c cl1 s) cl1) as (s'&cl'&Hr&Hst'&Hcl'&Hs&Hm); try done.
      { by eapply istep_core. } { apply lookup_insert. }
      exists s', cl'. split; [exact Hr|]. split; [by eapply rtc_l|]. split; [done|]. split; [done|].
      intros g' M' Hg'. destruct (Hm g' M' Hg') as [(M0&H0&Hs0) Hni]. simpl in H0.
      destruct (decide (g = g')) as [<-|Hne].
      * rewrite lookup_insert in H0. injection H0 as <-. split; [exists M; split; [done|set_solver]|set_solver].
      * rewrite lookup_insert_ne in H0 by done. split; [eauto|]. rewrite elem_of_cons. intros [->|?]; [done|auto].
    + destruct (IH s cl) as (s'&cl'&Hr&Hst'&Hcl'&Hs&Hm); try done.
      exists s', cl'. split; [exact Hr|]. split; [done|]. split; [done|]. split; [done|].
      intros g' M' Hg'. destruct (Hm g' M' Hg') as [(M0&H0&Hs0) Hni]. split; [eauto|].
      rewrite elem_of_cons. intros [->|?]; [congruence|auto].
Qed.

(** ** [assign_jobs] *)
Lemma keys_fold (h : gmap file_uuid store_key) l : forall m : gmap file_uuid store_key,
  (forall f, f ∈ l -> is_Some (h !! f)) ->
  exists keys, rfold (fun (m : gmap file_uuid store_key) f =>
    match h !! f with None => RPanic | Some k => ROk (<[f := k]> m) end) l m = ROk keys /\
    forall f, keys !! f = if bool_decide (f ∈ l) then h !! f else m !! f.
Proof.
  induction l as [|x l IH]; intros m Hh; simpl.
  - by exists m.
  - destruct (Hh x ltac:(left)) as [k Hk]. rewrite Hk. simpl.
    destruct (IH (<[x:=k]> m)) as (keys&E&Hkeys); [intros; apply Hh; by right|].
    exists keys. split; [done|]. intros f. rewrite Hkeys.
    case_bool_decide as H1; case_bool_decide as H2; rewrite elem_of_cons in H2.
    + done.
    + exfalso; auto.
    + destruct H2 as [->|?]; [by rewrite lookup_insert|done].
    + rewrite lookup_insert_ne; [done|]. intros ->. auto.
Qed.
Lemma keys_walk (h : gmap file_uuid store_key) gr :
  (forall f, f ∈ group_deps gr -> is_Some (h !! f)) ->
  exists keys, rfold (fun (m : gmap file_uuid store_key) f =>
    match h !! f with None => RPanic | Some k => ROk (<[f := k]> m) end) (group_deps gr) ∅ = ROk keys /\
    forall f k, keys !! f = Some k <-> f ∈ group_deps gr /\ h !! f = Some k.
Proof.
  intros Hh. destruct (keys_fold h (group_deps gr) ∅ Hh) as (keys&E&Hk). exists keys. split; [done|].
  intros f k. rewrite Hk. case_bool_decide; [naive_solver|]. rewrite lookup_empty. naive_solver.
Qed.

Definition no_idle (s : state) : Prop := s_queue s = [] \/ forall w, s_workers s !! w <> Some None.

Lemma assign_one_walk L P w s : core (Cfg L P s) ->
  exists s', assign_one s w = ROk s' /\ rtc istep (Cfg L P s) (Cfg L P s') /\
    (s_queue s' = [] \/ s_workers s' !! w <> Some None) /\
    (forall w', s_workers s' !! w' = Some None -> s_workers s !! w' = Some None) /\
    (s_queue s = [] -> s_queue s' = []).
Proof.
  intros Hcore. unfold assign_one. destruct (s_workers s !! w) as [[job|]|] eqn:Ew.
  1,3: exists s; split; [done|]; split; [done|]; split; [right; congruence|auto].
  destruct (pop_max (s_queue s)) as [[en q]|] eqn:Epop.
  2: { exists s. apply pop_max_None in Epop. split; [done|]; split; [done|]; split; [by left|auto]. }
  assert (Hen : en ∈ s_queue s) by (rewrite (pop_max_perm _ _ _ Epop); left).
  destruct (co_queue _ Hcore en Hen) as [[cl Hcl] Hi]. destruct (Hi cl Hcl) as (gr&Hgr&Hh). simpl in Hcl, Hgr, Hh |- *.
  rewrite Hcl. simpl. rewrite (proj2 (core_lookup _ _ _ _ _ Hcore Hcl) Hgr).
  destruct (keys_walk (cl_handles cl) gr Hh) as (keys&Ek&Hk). rewrite Ek. simpl.
  exists (assign_state w en q cl gr keys s). split; [done|]. split.
  { apply rtc_once. eapply is_assign; eauto. }
  split; [|split].
  - right. simpl. by rewrite lookup_insert.
  - simpl. intros w' Hw'. destruct (decide (w = w')) as [<-|Hne]; [done|]. by rewrite lookup_insert_ne in Hw' by done.
  - simpl. intros Hq. rewrite Hq in Epop. done.
Qed.
Lemma assign_fold L P ws : forall s, core (Cfg L P s) ->
  exists s', rfold assign_one ws s = ROk s' /\ rtc istep (Cfg L P s) (Cfg L P s') /\
    (s_queue s' = [] \/ forall w, w ∈ ws -> s_workers s' !! w <> Some None) /\
    (forall w', s_workers s' !! w' = Some None -> s_workers s !! w' = Some None) /\
    (s_queue s = [] -> s_queue s' = []).
Proof.
  induction ws as [|w ws IH]; intros s Hcore; simpl.
  - exists s. split; [done|]. split; [done|]. split; [right; intros w Hw; by apply not_elem_of_nil in Hw|]. auto.
  - destruct (assign_one_walk L P w s Hcore) as (s1&E1&Hst1&Hq1&Hw1&He1). rewrite E1. simpl.
    destruct (IH s1) as (s2&E2&Hst2&Hq2&Hw2&He2); [by eapply isteps_core|].
    exists s2. split; [done|]. split; [by eapply rtc_transitive|]. split; [|split; [auto|auto]].
    destruct Hq2 as [|Hq2]; [by left|]. destruct Hq1 as [Hq1|Hq1]; [left; auto|].
    right. intros w' Hw'. apply elem_of_cons in Hw' as [->|Hw']; [|by apply Hq2]. intros Hx. by apply Hq1, Hw2.
Qed.
Lemma assign_walk env L P s : env_ok env -> core (Cfg L P s) ->
  exists s', assign_jobs env s = ROk s' /\ rtc istep (Cfg L P s) (Cfg L P s') /\ no_idle s'.
Proof.
  intros Henv Hcore. unfold assign_jobs.
  destruct (assign_fold L P (e_ord env (s_tick s) _ (map_to_list (s_workers s)).*1) (tick s)) as (s'&E&Hst&Hq&Hw&He).
  { eapply istep_core; [exact Hcore|constructor]. }
  exists s'. split; [done|]. split; [eapply rtc_l; [constructor|done]|].
  destruct Hq as [Hq|Hq]; [by left|right]. intros w Hx. apply (Hq w); [|done].
  rewrite (eo_ord _ Henv). apply elem_of_list_fmap. exists (w, None). split; [done|].
  apply elem_of_map_to_list. by apply Hw in Hx.
Qed.

Definition sc_spec (sc : state -> res state) (n : nat) : Prop := forall L P s,
  core (Cfg L P s) -> mu s <= n -> walks (Cfg L P s) (sc s) L P.

Lemma file_success_walk env sc n L P c f s : env_ok env -> sc_spec sc n ->
  core (Cfg L P s) -> mu s <= n ->
  (forall cl, s_clients s !! c = Some cl -> ok_file (cl_dag cl) c f (s_log s) /\ is_Some (cl_handles cl !! f)) ->
  walks (Cfg L ((c, f) :: P) s) (file_success env sc c f s) L P.
Proof.
  intros Henv Hsc Hcore Hmu Hok.
  assert (Hsf : rtc istep (Cfg L ((c, f) :: P) s) (Cfg L ((c, f) :: P) (send_file c f true s)))
    by (apply send_file_steps; naive_solver).
  assert (Hcore1 : core (Cfg L ((c, f) :: P) (send_file c f true s)))
    by (eapply isteps_core; [|exact Hsf]; by eapply (core_sub _ _ Hcore)).
  unfold walks, file_success; rewrite send_file_clients.
  destruct (s_clients s !! c) as [cl|] eqn:Ecl;
    [|exists (send_file c f true s); split; [done|]; eapply rtc_r; [exact Hsf|]; apply is_pdrop;
      rewrite send_file_clients; intros; congruence].
  destruct (Hok cl eq_refl) as [Hokf Hhf].
  assert (Ecl' : s_clients (send_file c f true s) !! c = Some cl) by (by rewrite send_file_clients).
  destruct (cl_input_of cl !! f) as [gs|] eqn:Egs;
    [|exists (send_file c f true s); split; [done|]; eapply rtc_r; [exact Hsf|]; apply is_pdrop;
      intros cl0 g M Hcl0 HM Hf; destruct (missing_of_input _ c cl0 g M f Hcore1 Hcl0 HM Hf) as (?&?&?);
      simpl in *; congruence].
  set (s1 := send_file c f true s) in *.
  assert (Hst1 : istep (Cfg L ((c, f) :: P) s1) (Cfg L ((c, f) :: P) (tick s1))) by constructor.
  destruct (enable_fold L ((c, f) :: P) c f (e_ord env (s_tick s1) _ (elements gs)) (tick s1) cl)
    as (s'&cl'&Hr&Hst'&Hcl'&Hstat&Hm);
    [by eapply istep_core|done|by eapply (ok_file_step _ _ _ _ _ Hsf)|done| |].
  { intros g Hg; rewrite (eo_ord _ Henv), elem_of_elements in Hg; apply (co_io _ Hcore1 c cl Ecl'); eauto. }
  assert (Hdrop : rtc istep (Cfg L ((c, f) :: P) s) (Cfg L P s')).
  { eapply rtc_transitive; [exact Hsf|]; eapply rtc_l; [exact Hst1|]. eapply rtc_r; [exact Hst'|].
    apply is_pdrop; intros cl0 g M Hcl0 HM Hf; rewrite Hcl' in Hcl0; injection Hcl0 as <-.
    destruct (Hm g M HM) as [(M0&HM0&Hsub) Hni]. apply Hni; [|done]. rewrite (eo_ord _ Henv), elem_of_elements;
      destruct (missing_of_input _ c cl g M0 f Hcore1 Ecl' HM0 ltac:(set_solver)) as (gs'&E'&?); simpl in *; congruence. }
  rewrite Hr; simpl.
  assert (Hcore2 : core (Cfg L P s')) by (eapply isteps_core; [|exact Hdrop]; by eapply (core_sub _ _ Hcore)).
  destruct (Hsc L P s' Hcore2) as (s2&E2&Hst2).
  { etrans; [|exact Hmu]. apply (isteps_mu _ _ Hdrop). }
  rewrite E2. simpl. destruct (assign_walk env L P s2 Henv) as (s3&E3&Hst3&_); [by eapply isteps_core|].
  exists s3. split; [done|]. eapply rtc_transitive; [exact Hdrop|]. by eapply rtc_transitive.
Qed.

(** ** After a group has been completed *)
Definition propagate env sc c gr results s : res state :=
  let! s := if all_success results then rfold (fun s f => file_success env sc c f s) (group_outputs gr) s
            else rfold (fun s f => file_failed env (mu s) c f s) (group_outputs gr) s in
  sc s.

Lemma success_fold env sc n L P c l : env_ok env -> sc_spec sc n -> forall s,
  core (Cfg L (map (pair c) l ++ P) s) -> mu s <= n ->
  (forall f cl, f ∈ l -> s_clients s !! c = Some cl -> ok_file (cl_dag cl) c f (s_log s) /\ is_Some (cl_handles cl !! f)) ->
  walks (Cfg L (map (pair c) l ++ P) s) (rfold (fun s f => file_success env sc c f s) l s) L P.
Proof.
  intros Henv Hsc. induction l as [|f0 l IHl]; intros s0 Hc0 Hmu0 Hb0; [by exists s0|].
  simpl. destruct (file_success_walk env sc n L (map (pair c) l ++ P) c f0 s0 Henv Hsc) as (s2&E2&Hst2).
  { by eapply (core_sub _ _ Hc0). } { done. } { intros cl0 Hcl0. apply Hb0; [left|done]. }
  rewrite E2. simpl. destruct (IHl s2) as (s3&E3&Hst3).
  - eapply isteps_core; [|exact Hst2]. done.
  - etrans; [|exact Hmu0]. apply (isteps_mu _ _ Hst2).
  - intros f' cl0 Hf' Hcl0. apply isteps_grows in Hst2 as Hg2. destruct (grows_bwd _ _ _ _ Hg2 Hcl0) as (cl1&Hcl1&Hs1&Hh1).
    destruct (Hb0 f' cl1) as [Ho Hh]; [by right|done|].
    rewrite (static_dag _ _ Hs1). split; [by apply (ok_file_step _ _ _ _ _ Hst2)|auto].
  - exists s3. split; [done|]. eapply rtc_transitive; [exact Hst2|done].
Qed.
Lemma failed_fold env L P c l : env_ok env -> forall s,
  core (Cfg L (map (pair c) l ++ P) s) ->
  (forall f cl, f ∈ l -> s_clients s !! c = Some cl -> bad_file (cl_dag cl) c f (s_log s)) ->
  walks (Cfg L (map (pair c) l ++ P) s) (rfold (fun s f => file_failed env (mu s) c f s) l s) L P.
Proof.
  intros Henv. induction l as [|f0 l IHl]; intros s0 Hc0 Hb0; [by exists s0|].
  simpl. destruct (file_failed_walk env (mu s0) Henv L (map (pair c) l ++ P) c f0 s0) as (s2&E2&Hst2).
  { by eapply (core_sub _ _ Hc0). } { done. } { intros cl0 Hcl0. apply Hb0; [left|done]. }
  rewrite E2. simpl. destruct (IHl s2) as (s3&E3&Hst3).
  - eapply isteps_core; [|exact Hst2]. done.
  - intros f' cl0 Hf' Hcl0. apply isteps_grows in Hst2 as Hg2. destruct (grows_bwd _ _ _ _ Hg2 Hcl0) as (cl1&Hcl1&Hs1&Hh1).
    rewrite (static_dag _ _ Hs1). apply (bad_file_step _ _ _ _ _ Hst2). apply Hb0; [by right|done].
  - exists s3. split; [done|]. eapply rtc_transitive; [exact Hst2|done].
Qed.

Lemma all_success_true results : all_success results = true -> forall r, r ∈ results -> res_status r = Success.
Proof.
  unfold all_success. rewrite forallb_forall. intros H r Hr. apply elem_of_list_In in Hr.
  specialize (H r Hr). by destruct (res_status r).
Qed.
Lemma all_success_false results : all_success results = false -> exists r, r ∈ results /\ res_status r <> Success.
Proof.
  unfold all_success. induction results as [|r l IH]; simpl; [done|].
  destruct (is_success (res_status r)) eqn:E; simpl.
  - intros H. destruct (IH H) as (r'&?&?). exists r'. split; [by right|done].
  - intros _. exists r. split; [left|]. intros H. by rewrite H in E.
Qed.

Lemma propagate_walk env sc n L P c cl g gr fc results outs s : env_ok env -> sc_spec sc n ->
  core (Cfg L (map (pair c) (group_outputs gr) ++ P) s) -> mu s <= n ->
  s_clients s !! c = Some cl -> (g, gr) ∈ d_groups (cl_dag cl) ->
  (forall f, f ∈ group_outputs gr -> is_Some (cl_handles cl !! f)) ->
  ECompleted c g fc results outs ∈ s_log s ->
  walks (Cfg L (map (pair c) (group_outputs gr) ++ P) s) (propagate env sc c gr results s) L P.
Proof.
  intros Henv Hsc Hcore Hmu Hcl Hgr Hh Hlog. unfold propagate.
  assert (H1 : walks (Cfg L (map (pair c) (group_outputs gr) ++ P) s)
    (if all_success results then rfold (fun s f => file_success env sc c f s) (group_outputs gr) s
     else rfold (fun s f => file_failed env (mu s) c f s) (group_outputs gr) s) L P).
  { destruct (all_success results) eqn:Es.
    - apply (success_fold _ _ n); try done. intros f cl0 Hf Hcl0. assert (cl0 = cl) as -> by congruence.
      split; [|auto]. right. exists g, gr, fc, results, outs. repeat split; try done. by apply all_success_true.
    - apply failed_fold; try done. intros f cl0 Hf Hcl0. assert (cl0 = cl) as -> by congruence.
      exists g, gr. split; [done|]. split; [done|]. right. destruct (all_success_false _ Es) as (r&?&?).
      exists fc, results, outs, r. done. }
  destruct H1 as (s1&E1&Hst1). rewrite E1. simpl.
  destruct (Hsc L P s1) as (s2&E2&Hst2).
  - eapply isteps_core; [exact Hcore|exact Hst1].
  - etrans; [apply (isteps_mu _ _ Hst1)|done].
  - exists s2. split; [done|]. by eapply rtc_transitive.
Qed.

Lemma exec_completed_cached_walk env sc n L P c cl g gr results outs s : env_ok env -> sc_spec sc n ->
  core (Cfg ((c, g) :: L) P s) -> mu s <= n ->
  s_clients s !! c = Some cl -> (g, gr) ∈ d_groups (cl_dag cl) ->
  length results = length (g_execs gr) ->
  (forall f, f ∈ group_outputs gr -> is_Some (outs !! f)) ->
  (forall r, r ∈ results -> res_was_cached r = true) ->
  walks (Cfg ((c, g) :: L) P s) (exec_completed env sc c gr results outs true s) L P.
Proof.
  intros Henv Hsc Hcore Hmu Hcl Hgr Hlen Houts Hrc. unfold exec_completed. rewrite Hcl. cbv zeta. simpl negb. simpl andb. cbv iota.
  change (rbind (ROk ?x) ?f) with (f x). cbv beta.
  assert (Hst : istep (Cfg ((c, g) :: L) P s)
    (Cfg L (map (pair c) (group_outputs gr) ++ P) (complete c cl gr results outs true s))) by (by eapply is_complete_cached).
  assert (Hgu : g_uuid gr = g). { destruct (co_dag _ Hcore c cl Hcl) as [(_&_&Hk) _]. by apply Hk. }
  destruct (propagate_walk env sc n L P c (set_handles (outs ∪ cl_handles cl) cl) g gr true results outs
    (complete c cl gr results outs true s) Henv Hsc) as (s1&E1&Hst1).
  - by eapply istep_core.
  - etrans; [apply (istep_mu _ _ Hst)|done].
  - apply lookup_insert.
  - done.
  - intros f Hf. simpl. rewrite lookup_union_is_Some. left. by apply Houts.
  - simpl. apply elem_of_app. right. rewrite Hgu. left.
  - exists s1. split; [exact E1|]. by eapply rtc_l.
Qed.

(** ** [schedule_cached] *)
Definition hit_ok (s : state) (h : hit) : Prop := exists cl,
  s_clients s !! h_client h = Some cl /\ (g_uuid (h_group h), h_group h) ∈ d_groups (cl_dag cl) /\
  length (h_results h) = length (g_execs (h_group h)) /\
  (forall f, f ∈ group_outputs (h_group h) -> is_Some (h_outs h !! f)) /\
  (forall r, r ∈ h_results h -> res_was_cached r = true).
Definition hc (h : hit) : client_uuid * group_uuid := (h_client h, g_uuid (h_group h)).
Lemma hit_ok_grows s s' h : grows s s' -> hit_ok s h -> hit_ok s' h.
Proof.
  intros Hg (cl&Hcl&Hgr&H1&H2&H3). destruct (grows_fwd _ _ _ _ Hg Hcl) as (cl'&Hcl'&Hs&_).
  exists cl'. rewrite (static_dag _ _ Hs). auto 6.
Qed.

Lemma cacheable_walk d gr g : valid_dag d -> (g, gr) ∈ d_groups d ->
  exists b, is_cacheable gr (cfg_cache_mode (d_config d)) = ROk b /\
    (b = true -> cfg_cache_mode (d_config d) <> CacheNothing -> cache_allowed d gr).
Proof.
  intros [_ Hwf] Hgr. unfold is_cacheable, group_tag, cache_allowed. apply (wf_nonempty _ Hwf) in Hgr as Hne.
  destruct (g_execs gr) as [|e es]; [done|]. simpl. eexists. split; [reflexivity|].
  destruct (cfg_cache_mode (d_config d)) as [| |tags]; try done.
  intros Hb _ e' rest t [= <- <-] Ht. rewrite Ht in Hb. by case_bool_decide.
Qed.

Lemma collect_fold env P : env_ok env -> forall l L s nc hits,
  core (Cfg L P (set_queue (l ++ nc) s)) ->
  exists s' nc' new, rfold (collect_one env) l (s, nc, hits) = ROk (s', nc', hits ++ new) /\
    rtc istep (Cfg L P (set_queue (l ++ nc) s)) (Cfg (map hc new ++ L) P (set_queue nc' s')) /\
    Forall (hit_ok s') new /\ length nc' + length new = length l + length nc.
Proof.
  intros Henv. induction l as [|en l IH]; intros L s nc hits Hcore; simpl.
  - exists s, nc, []. rewrite app_nil_r. split; [done|]. split; [done|]. split; [done|]. simpl. lia.
  - destruct (co_queue _ Hcore en ltac:(left)) as [[cl Hcl] Hi]. destruct (Hi cl Hcl) as (gr&Hgr&Hh). simpl in Hcl, Hgr, Hh.
    rewrite Hcl. assert (Hlk : alookup (en_group en) (d_groups (cl_dag cl)) = Some gr)
      by (by apply (core_lookup _ (en_client en) cl _ _ Hcore)).
    assert (Hv : valid_dag (cl_dag cl)) by (by eapply (co_dag _ Hcore)).
    assert (Hgu : g_uuid gr = en_group en) by (destruct Hv as [(_&_&Hk) _]; by apply Hk).
    assert (Hen' : Entry (en_dag_prio en) (en_prio en) (g_uuid gr) (en_client en) = en)
      by (rewrite Hgu; by destruct en).
    assert (Hnot : forall sx, sx = s \/ sx = tick s ->
      exists s' nc' new, rfold (collect_one env) l (sx, en :: nc, hits) = ROk (s', nc', hits ++ new) /\
        rtc istep (Cfg L P (set_queue (en :: l ++ nc) s)) (Cfg (map hc new ++ L) P (set_queue nc' s')) /\
        Forall (hit_ok s') new /\ length nc' + length new = S (length l + length nc)).
    { intros sx Hsx.
      assert (Hst : rtc istep (Cfg L P (set_queue (en :: l ++ nc) s)) (Cfg L P (set_queue (l ++ en :: nc) sx))).
      { eapply rtc_l; [apply is_queue; symmetry; apply (Permutation_middle l nc en)|]. destruct Hsx as [-> | ->]; [done|].
        eapply rtc_l; [apply is_tick|]. done. }
      destruct (IH L sx (en :: nc) hits) as (s'&nc'&new&E&Hst'&Hok&Hlen).
      { by eapply isteps_core. }
      exists s', nc', new. split; [done|]. split; [by eapply rtc_transitive|]. split; [done|]. simpl in Hlen. lia. }
    destruct (cacheable_walk (cl_dag cl) gr _ Hv Hgr) as (b&Eb&Hb).
    destruct (cfg_cache_mode (d_config (cl_dag cl))) as [| |tags] eqn:Em; [|apply (Hnot s); by left|].
    all: rewrite Hlk, Eb; simpl; rewrite Hen'.
    all: destruct b; simpl; [|apply (Hnot s); by left].
    all: destruct (e_cache env (s_tick s) gr (cl_handles cl)) as [[results outs]|] eqn:Ec; simpl;
      [|apply (Hnot (tick s)); by right].
    all: destruct (eo_cache _ Henv _ _ _ _ _ Ec) as (Hlen&Houts&Hrc); rewrite Hgu.
    all: set (s1 := upd_client (en_client en) (set_ready (cl_ready cl ∖ {[en_group en]}) cl) (tick s)).
    all: assert (Hst : istep (Cfg L P (set_queue (en :: l ++ nc) s))
           (Cfg ((en_client en, en_group en) :: L) P (set_queue (l ++ nc) s1)))
         by (eapply (is_hit L P (set_queue (en :: l ++ nc) s) en (l ++ nc) cl gr); [done|done|done|by apply Hb]).
    all: destruct (IH ((en_client en, en_group en) :: L) s1 nc (hits ++ [Hit (en_client en) gr results outs]))
           as (s'&nc'&new&E&Hst'&Hok&Hlen'); [by eapply istep_core|].
    all: exists s', nc', (Hit (en_client en) gr results outs :: new).
    all: split; [rewrite E; by rewrite <- app_assoc|].
    all: split; [eapply rtc_l; [exact Hst|]; eapply rtc_r; [exact Hst'|]; apply is_perm; simpl;
                 unfold hc at 2; simpl; rewrite Hgu; symmetry; apply Permutation_middle|].
    all: split; [|simpl in *; lia].
    all: constructor; [|done].
    all: eapply (hit_ok_grows (set_queue (l ++ nc) s1) s').
    1,3: apply (grows_trans _ (set_queue nc' s')); [apply (isteps_grows _ _ Hst')|by apply grows_refl_clients].
    all: exists (set_ready (cl_ready cl ∖ {[en_group en]}) cl); simpl; rewrite Hgu.
    all: split; [apply lookup_insert|done].
Qed.

Lemma schedule_cached_spec env fuel : env_ok env -> sc_spec (schedule_cached env fuel) fuel.
Proof.
  intros Henv. induction fuel as [|fuel IH]; intros L P s Hcore Hmu; unfold walks.
  all: assert (Hq0 : rtc istep (Cfg L P s) (Cfg L P (set_queue (e_ord env (s_tick s) _ (s_queue s) ++ []) (tick s))))
    by (eapply rtc_l; [apply is_tick|]; apply rtc_once, is_queue; rewrite app_nil_r; apply (eo_ord _ Henv)).
  all: destruct (collect_fold env P Henv (e_ord env (s_tick s) _ (s_queue s)) L (tick s) [] [])
    as (s1&nc&hits&E&Hst&Hok&Hlen); [by eapply isteps_core|].
  all: simpl; rewrite E; simpl.
  all: assert (Hst1 : rtc istep (Cfg L P s) (Cfg (map hc hits ++ L) P (set_queue nc s1))) by (by eapply rtc_transitive).
  all: destruct hits as [|h hits]; [by exists (set_queue nc s1)|].
  all: assert (Hlt : mu (set_queue nc s1) < mu s);
    [pose proof (isteps_mu_L _ _ Hst1) as Hm; simpl in Hm; rewrite app_length, map_length in Hm; lia|].
  - lia.
  - assert (Hrec : forall l s0, core (Cfg (map hc l ++ L) P s0) -> mu s0 <= fuel -> Forall (hit_ok s0) l ->
      walks (Cfg (map hc l ++ L) P s0) (rfold (fun s h => exec_completed env (schedule_cached env fuel) (h_client h) (h_group h)
                               (h_results h) (h_outs h) true s) l s0) L P).
    { intros l. induction l as [|h0 l IHl]; intros s0 Hc0 Hmu0 Hok0; [by exists s0|].
      simpl. apply Forall_cons in Hok0 as [(cl&Hcl&Hgr&Hle&Ho&Hrc) Hok0].
      destruct (exec_completed_cached_walk env (schedule_cached env fuel) fuel (map hc l ++ L) P (h_client h0) cl
        (g_uuid (h_group h0)) (h_group h0) (h_results h0) (h_outs h0) s0) as (s2&E2&Hst2); try done.
      rewrite E2. simpl. destruct (IHl s2) as (s3&E3&Hst3).
      - eapply isteps_core; [exact Hc0|exact Hst2].
      - etrans; [|exact Hmu0]. apply (isteps_mu _ _ Hst2).
      - eapply Forall_impl; [exact Hok0|]. intros h1. apply hit_ok_grows. apply (isteps_grows _ _ Hst2).
      - exists s3. split; [done|]. eapply rtc_transitive; [exact Hst2|done]. }
    destruct (Hrec (h :: hits) (set_queue nc s1)) as (s2&E2&Hst2).
    + by eapply isteps_core.
    + lia.
    + eapply Forall_impl; [exact Hok|]. intros h1. apply hit_ok_grows. by apply grows_refl_clients.
    + exists s2. split; [done|]. by eapply rtc_transitive.
Qed.
Lemma sc_top_spec env n : env_ok env -> sc_spec (sc_top env) n.
Proof. intros Henv L P s Hcore Hmu. unfold sc_top. by apply schedule_cached_spec. Qed.
