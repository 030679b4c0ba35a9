(** * UiStateProps: property C55 *)
From Verif Require Import ChecksSpec ChecksProps ScoreSpec ScoreProps UiStateSpec UiStateProofs UiStateProofs2 UiStateProofs3.

(** ** The UI never panics: every list of messages about subtasks and testcases that exist is applied *)
Theorem C55_no_panic t ms : Forall (message_ok t) ms -> steps_agree ms -> is_Some (ui_run t ms (new_ui_state t)).
Proof. intros Hf Hs. destruct (ui_run_ok t ms _ Hs Hf (ui_ok_new t ms)) as [u Hu]. by exists u. Qed.

(** ** What is shown of a testcase depends only on the messages about it, however they are mixed with the others *)
Theorem C55_local t ms u u' sol tc :
  tc ∈ ut_testcases t -> ui_run t ms (new_ui_state t) = Some u -> ui_run t (List.filter (about sol tc) ms) (new_ui_state t) = Some u' ->
  List.filter (about sol tc) ms <> [] -> shown u sol tc = shown u' sol tc /\ is_Some (shown u sol tc).
Proof.
  intros Htc H H' Hne. destruct (shown_run t ms u sol tc H Hne Htc) as (x & Hx & Hr).
  assert (forall l, List.filter (about sol tc) (List.filter (about sol tc) l) = List.filter (about sol tc) l) as Hff.
  { intros l. induction l as [|m l IH]; simpl; [done|]. destruct (about sol tc m) eqn:E; simpl; [rewrite E; by f_equal|done]. }
  destruct (shown_run t (List.filter (about sol tc) ms) u' sol tc H') as (x' & Hx' & Hr'); [by rewrite Hff|done|].
  rewrite Hff in Hr'. split; [congruence|by exists x].
Qed.
Theorem C55_local_generation t ms u u' st s tc :
  ut_subtasks t !! st = Some s -> tc ∈ us_owned s -> ui_run t ms (new_ui_state t) = Some u ->
  ui_run t (List.filter (about_gen st tc) ms) (new_ui_state t) = Some u' -> shown_gen u st tc = shown_gen u' st tc /\ is_Some (shown_gen u st tc).
Proof.
  intros Hs Htc H H'. pose proof (shown_gen_new t st tc s Hs Htc) as Hn.
  rewrite (ui_run_gen _ _ _ _ _ _ _ H Hn), (ui_run_gen _ _ _ _ _ _ _ H' Hn).
  assert (forall l, List.filter (about_gen st tc) (List.filter (about_gen st tc) l) = List.filter (about_gen st tc) l) as Hff.
  { intros l. induction l as [|m l IH]; simpl; [done|]. destruct (about_gen st tc m) eqn:E; simpl; [rewrite E; by f_equal|done]. }
  rewrite Hff. split; [done|by eexists].
Qed.

Section batch.
  Context (parse : list N -> option f64) (totext : list N -> string) (show : status -> string).
  Context (t : ui_task) (c : checker) (st tc : nat) (sol : path).

  (** ** Batch tasks: whatever the other messages, what is shown of a testcase is the outcome of what was heard about it *)
  Theorem C55_batch ms l log u :
    tc ∈ ut_testcases t -> legal l -> batch_log parse totext show c st tc sol l = Some log -> List.filter (about sol tc) ms = log ->
    ui_run t ms (new_ui_state t) = Some u ->
    exists x, shown u sol tc = Some x /\ outcome_of parse totext c l (t_status x) /\ recorded parse totext c l x.
  Proof.
    intros Htc Hl Hlog Hf Hu. destruct (shown_run t ms u sol tc Hu) as (x & Hx & Hr); [|done|].
    - rewrite Hf. unfold batch_log in Hlog. destruct (mapM _ l); simpl in Hlog; [|done]. by injection Hlog as <-.
    - rewrite Hf in Hr. exists x. split; [done|]. by eapply batch_run.
  Qed.
  (** That outcome is one *)
  Theorem C55_outcome_unique l s1 s2 : legal l -> outcome_of parse totext c l s1 -> outcome_of parse totext c l s2 -> s1 = s2.
  Proof. apply outcome_unique. Qed.
  (** Once there is a final outcome nothing changes it: a failure does not become a success *)
  Theorem C55_final ms1 ms2 l1 l2 log1 log2 u1 u2 x1 :
    tc ∈ ut_testcases t -> legal (l1 ++ l2) ->
    batch_log parse totext show c st tc sol l1 = Some log1 -> List.filter (about sol tc) ms1 = log1 ->
    batch_log parse totext show c st tc sol (l1 ++ l2) = Some log2 -> List.filter (about sol tc) (ms1 ++ ms2) = log2 ->
    ui_run t ms1 (new_ui_state t) = Some u1 -> ui_run t (ms1 ++ ms2) (new_ui_state t) = Some u2 ->
    shown u1 sol tc = Some x1 -> has_completed (t_status x1) = true ->
    exists x2, shown u2 sol tc = Some x2 /\ t_status x2 = t_status x1.
  Proof.
    intros Htc Hl Hlog1 Hf1 Hlog2 Hf2 Hu1 Hu2 Hx1 Hc.
    destruct (C55_batch ms1 l1 log1 u1) as (y & Hy & Ho & _); [done|by eapply legal_app_inv|done|done|done|]. rewrite Hx1 in Hy. injection Hy as <-.
    destruct (C55_batch (ms1 ++ ms2) (l1 ++ l2) log2 u2) as (x2 & Hx2 & Ho2 & _); [done..|]. exists x2. split; [done|].
    eapply C55_outcome_unique; [exact Hl|done|]. by apply outcome_stable.
  Qed.
  (** A testcase is shown as accepted only if the solution succeeded and the checker gave it a score about 1 *)
  Theorem C55_accepted ms l log u x msg :
    tc ∈ ut_testcases t -> legal l -> batch_log parse totext show c st tc sol l = Some log -> List.filter (about sol tc) ms = log ->
    ui_run t ms (new_ui_state t) = Some u -> shown u sol tc = Some x -> t_status x = EAccepted msg ->
    (exists r, OnSolution (XDone r) ∈ l /\ res_status r = Success) /\
    (exists r v, OnChecker (XDone r) ∈ l /\ checker_answer parse totext c r = Some (Some (v, msg)) /\
       f64_eq v f64_zero = false /\ f64_lt (f64_abs (f64_sub v f64_one)) f64_thousandth = true /\ t_score x = Some v).
  Proof.
    intros Htc Hl Hlog Hf Hu Hx Hs. destruct (C55_batch ms l log u) as (y & Hy & Ho & R); [done..|]. rewrite Hx in Hy. injection Hy as <-. rewrite Hs in Ho.
    inversion Ho as [A|r s A B|r v m s A B D|w A B|A B D|w A B|A B]; subst; [inversion B|].
    inversion D as [|D1 D2|]; subst. split; [by eapply legal_checker|]. exists r, v. destruct R as (_ & _ & _ & R). split; [done|]. split; [done|]. split; [done|]. split; [done|]. apply R. right. by exists r, msg.
  Qed.
End batch.

Section comm.
  Context (parse : list N -> option f64) (totext : list N -> string) (show : status -> string).
  Context (t : ui_task) (n st tc : nat) (sol : path).
  (** ** Communication tasks: the score is that of C41; the outcome that is shown is that of the process heard last, if it failed, else that of the score *)
  Theorem C55_communication ms results manager starts ends log u v m :
    tc ∈ ut_testcases t -> comm_complete n results manager starts ends -> comm_log parse totext show n st tc sol (starts ++ ends) = Some log ->
    List.filter (about sol tc) ms = log -> ui_run t ms (new_ui_state t) = Some u ->
    manager_answer parse totext manager = Some (v, m) -> no_nan v ->
    exists x score msg, shown u sol tc = Some x /\ t_results x = map Some results /\ t_checker x = Some manager /\ t_score x = Some score /\
      worst (omap (fun e => g ← to_group e; group_answer parse totext show g) ends) (Some (score, msg)) /\
      (Forall (fun r => res_status r = Success) results -> score = v /\ msg = m) /\
      (Exists (fun r => res_status r <> Success) results -> f64_lt f64_zero v = true -> score = f64_zero) /\
      (forall r, last_process ends r -> res_status r <> Success -> failure (res_status r) (t_status x)) /\
      ((forall r, last_process ends r -> res_status r = Success) -> score_outcome score msg (t_status x)).
  Proof.
    intros Htc (Hn & Hst & Hsi & Hends) Hlog Hf Hu Hman Hnan. unfold comm_log in Hlog. rewrite comm_run_starts in Hlog by done.
    destruct (comm_run parse totext show n st tc sol ends (new_sender n)) as [mse|] eqn:Er; cbn [mbind option_bind] in Hlog; [|done]. injection Hlog as Hlog.
    assert (forall e, e ∈ ends -> exists g, to_group e = Some g) as Hg.
    { intros e He. rewrite Hends in He. apply elem_of_cons in He as [->|He]; [by eexists|]. apply elem_of_lookup_imap in He as (i & r & -> & _). by eexists. }
    assert (forall i r, OnProcess i (XDone r) ∈ ends <-> results !! i = Some r) as Hproc.
    { intros i r. rewrite Hends, elem_of_cons, elem_of_lookup_imap. split; [intros [?|(j & r' & [= <- <-] & H)]; done|]. intros H. right. by exists i, r. }
    assert (forall r, OnManager (XDone r) ∈ ends <-> r = manager) as Hmg.
    { intros r. rewrite Hends, elem_of_cons, elem_of_lookup_imap. split; [intros [[= ->]|(j & r' & ? & H)]; done|]. intros ->. by left. }
    destruct (comm_run_ends _ _ _ _ _ _ _ _ _ _ Hg Er) as (rs & Hrs & Hlen & Hmse).
    assert (omap to_group ends ≡ₚ ManagerDone manager :: map ProcessDone (map res_status results)) as Hgp.
    { rewrite Hends. simpl. constructor. clear. change (omap to_group (imap (fun i r => OnProcess i (XDone r)) results) ≡ₚ map ProcessDone (map res_status results)).
      generalize 0 as k. 
      assert (forall k, omap to_group (imap (fun i r => OnProcess (k + i) (XDone r)) results) = map ProcessDone (map res_status results)) as H.
      { induction results as [|r l IH]; intros k; [done|]. simpl. f_equal. rewrite <- (IH (S k)). f_equal. apply imap_ext. intros i x _. simpl. f_equal. lia. }
      intros _. by rewrite <- (H 0). }
    assert (length ends = n + 1) as Hle. { rewrite Hends. simpl. rewrite imap_length. lia. }
    destruct (C41_meaning parse totext show n (map res_status results) manager (omap to_group ends) v m rs) as ([score msg] & Ers & Hall & Hsome); [by rewrite map_length|done|done|done|done|].
    assert (exists heard, mapM (group_answer parse totext show) (omap to_group ends) = Some heard) as [heard Hheard].
    { destruct (mapM (group_answer parse totext show) (omap to_group ends)) as [h|] eqn:E; [by eexists|]. exfalso. apply mapM_None in E. apply Exists_exists in E as (e & Hin & He).
      rewrite Hgp in Hin. apply elem_of_cons in Hin as [->|Hin]; [simpl in He; by rewrite Hman in He|]. by apply elem_of_list_fmap in Hin as (? & -> & _). }
    assert (heard = omap (fun e => g ← to_group e; group_answer parse totext show g) ends) as Hh.
    { clear -Hheard Hg. revert heard Hheard. induction ends as [|e l IH]; intros heard Hheard; [by injection Hheard as <-|].
      destruct (Hg e) as [g Hge]; [by left|]. assert (omap to_group (e :: l) = g :: omap to_group l) as Eq by (simpl; by rewrite Hge). rewrite Eq in Hheard. cbn [mapM] in Hheard.
      simpl. rewrite Hge. simpl. destruct (group_answer parse totext show g) as [a|]; cbn [mbind option_bind] in Hheard; [|done].
      destruct (mapM _ (omap to_group l)) as [h|] eqn:Eh; cbn [mbind option_bind mret option_ret] in Hheard; [|done]. injection Hheard as <-. simpl. f_equal. apply IH; [|done]. intros e' He'. apply Hg. by right. }
    assert (Forall no_nan (sent heard)) as Hnn.
    { apply Forall_forall. intros y Hy. unfold sent in Hy. apply elem_of_list_omap in Hy as ([[y' my]|] & Hin & Hy); [|done]. simpl in Hy. injection Hy as ->.
      apply elem_of_list_lookup in Hin as [i Hi]. pose proof (proj1 (mapM_Some _ _ _) Hheard) as F2. destruct (Forall2_lookup_r _ _ _ _ _ F2 Hi) as (g & Hgi & Hga).
      apply elem_of_list_lookup_2 in Hgi. rewrite Hgp in Hgi. apply elem_of_cons in Hgi as [->|Hgi].
      - simpl in Hga. rewrite Hman in Hga. simpl in Hga. by injection Hga as <- <-.
      - apply elem_of_list_fmap in Hgi as (s & -> & _). simpl in Hga. unfold process_answer in Hga. destruct (is_success s); [done|]. by injection Hga as <- <-. }
    destruct (C41_worst parse totext show n (omap to_group ends) heard rs) as (answer & Ers' & Hworst); [rewrite Hgp; simpl; rewrite !map_length; lia|done|done|done|].
    rewrite Ers in Ers'. apply app_inj_tail in Ers' as [_ <-]. rewrite Hh in Hworst.
    (* the run *)
    destruct (shown_run t ms u sol tc Hu) as (x & Hx & Hr); [rewrite Hf, <- Hlog; by destruct (map _ (seq 0 n))|done|]. rewrite Hf, <- Hlog in Hr.
    assert (mse = map (comm_main n st tc sol) ends ++ scored st tc sol (Some (score, msg))) as ->.
    { rewrite Hmse, Ers. assert (length ends - 1 = n) as En by lia. pose proof (concat_last n st tc sol ends (Some (score, msg))) as Hcl. rewrite En in Hcl.
      apply Hcl. intros ->. simpl in Hle. lia. }
    rewrite tc_run_app in Hr. rewrite tc_run_pending in Hr by (destruct (decide (n = 0)) as [->|]; [by left|right; destruct n; [done|done]]). cbn [mbind option_bind] in Hr.
    rewrite <- app_comm_cons in Hr || idtac. cbn [app tc_run tc_step] in Hr. cbn [tc_apply_checker mbind option_bind] in Hr.
    set (x0 := TcState _ _ _ _) in Hr.
    assert (length (t_results x0) = n) as Hx0. { unfold x0. simpl. case_decide; [done|]. by rewrite replicate_length. }
    rewrite tc_run_app in Hr. destruct (tc_run_starts n st tc sol starts x0 Hst Hx0) as (s & Hs & Hrs'); [done|]. rewrite Hrs' in Hr. cbn [mbind option_bind] in Hr.
    rewrite tc_run_app in Hr. rewrite tc_run_ends in Hr; [|done| |done].
    2: { intros i r H. apply Hproc in H. apply lookup_lt_Some in H. lia. }
    cbn [mbind option_bind scored tc_run tc_step t_score t_status t_results t_checker] in Hr. injection Hr as <-.
    eexists _, score, msg. split; [exact Hx|]. cbn [t_score t_status t_results t_checker tc_apply_score]. split.
    { change (if decide (0 = n) then [] else replicate n None) with (t_results x0). apply list_eq. intros i. destruct (decide (i < n)) as [Hi|Hi].
      - destruct (set_all_lookup ends (t_results x0) i) as [HA HB].
        + intros j r r' H1 H2. apply Hproc in H1, H2. congruence.
        + lia.
        + destruct (lookup_lt_is_Some_2 results i) as [r Hri]; [lia|]. rewrite (HA r) by by apply Hproc. rewrite list_lookup_fmap, Hri. done.
      - rewrite !lookup_ge_None_2; [done|rewrite map_length; lia|rewrite set_all_length; lia]. }
    split. { apply last_manager_spec; [intros r' H; by apply Hmg in H|by apply Hmg]. }
    split; [done|]. split; [exact Hworst|]. split; [|split].
    { intros H. assert ((score, msg) = (v, m)) as [= -> ->]; [|done]. apply Hall. apply Forall_fmap. eapply Forall_impl; [exact H|]. done. }
    { intros H. apply Hsome. apply Exists_exists in H as (r & Hr & Hne). apply Exists_exists. exists (res_status r). split; [by apply elem_of_list_fmap_1|done]. }
    destruct (last_status_spec ends s) as [(r & Hlr & ->)|(Hlr & ->)].
    - split.
      + intros r' Hr' Hne. assert (r' = r) as -> by (by eapply last_process_unique). rewrite (failure_completed _ _ (failure_done _ Hne)). by apply failure_done.
      + intros Hsu. rewrite (Hsu r Hlr). simpl. apply score_outcome_status.
    - split; [intros r' Hr'; by apply Hlr in Hr'|]. intros _. rewrite Hs. apply score_outcome_status.
  Qed.
End comm.
