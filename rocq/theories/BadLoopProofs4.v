(** * BadLoopProofs4: the runs of the search *)
From Verif Require Import BadLoopModel BadLoopSpec BadLoopProofs BadLoopProofs2 BadLoopProofs3.
From Coq Require Import Ascii String.
From stdpp Require Import base list.

Lemma run_ind {A} (R : relation A) x (P : A -> Prop) : P x -> (forall y z, rtc R x y -> P y -> R y z -> P z) -> forall y, rtc R x y -> P y.
Proof. intros H0 H y Hy. refine (rtc_ind_r P x H0 _ y Hy). intros a b Ha Hb Hp. by apply (H a b). Qed.
Lemma stopped_fields y : y_phase (tell_stop y) = y_phase y /\ y_shared (tell_stop y) = y_shared y /\ y_sent (tell_stop y) = y_sent y /\ y_applied (tell_stop y) = y_applied y /\ y_ui (tell_stop y) = y_ui y.
Proof. done. Qed.
Lemma turn_fields size i m q u y : let y' := ui_turn size i m q u y in y_phase y' = y_phase y /\ y_sent y' = y_sent y /\ y_applied y' = y_applied y ++ [(i, m)] /\ y_queue y' = q.
Proof. cbn. unfold ui_turn. destruct (apply_msg _ _ _ _) as [? ? []|]; done. Qed.
Lemma apply_stop size u s m u' s' b : apply_msg size u s m = AOk u' s' b ->
  (sh_stop s = true -> sh_stop s' = true) /\ (sh_stop s = false -> sh_stop s' = true -> fails m /\ b = true).
Proof.
  assert (TS : forall tc st u1, then_set size tc st u1 s = AOk u' s' b -> s' = s) by (intros tc st u1; unfold then_set; destruct (set_status _ _ _ _); [by injection 1|done]).
  assert (FC : forall tc msg r u1, fail_case size tc msg r u1 s = AOk u' s' b -> sh_stop s' = sh_stop s).
  { intros tc msg r u1. unfold fail_case. destruct (set_status _ _ _ _); [|done]. destruct (sh_last s); [|done]. destruct (_ !! _); [|done]. injection 1 as <- <- <-. done. }
  intros H. assert (E : sh_stop s' = sh_stop s \/ fails m /\ sh_stop s' = true /\ b = true).
  { destruct m as [|tc [|r|]|tc [|r|]|tc [|r|]|tc [|r|]|tc sc ms|]; cbn [apply_msg] in H;
      try (left; injection H as _ <- _; done); try (left; apply TS in H; by subst).
    - left. destruct (is_success _); [apply TS in H; by subst|]. by apply FC in H.
    - left. destruct (is_success _); [apply TS in H; by subst|]. by apply FC in H.
    - left. destruct (is_success _); [destruct (set_status _ _ _ _); [|done]|]; by injection H as _ <- _.
    - destruct (f64_eq sc f64_one) eqn:Ef; [left; apply TS in H; by subst|]. right. destruct (set_status _ _ _ _); [|done]. destruct (sh_last s); [|done].
      injection H as <- <- <-. split; [|done]. by exists tc, ms, sc. }
  destruct E as [->|(H1 & H2 & H3)]; [split; [done|congruence]|]. split; [done|]. done.
Qed.

(** ** What every step does *)
Lemma step_no B size y y' : any_step B size y y' -> batch_no (y_phase y) <= batch_no (y_phase y').
Proof.
  intros [H|[x He Hp]]; [|done].
  destruct H as [i x Hp Hq|i x Hp|i x Hp|i x Hp|i x Hp Hf|i x Hp Hq Hs|i x Hp Hq Hs|i u x Hp Hu Hq|i x Hp Hu|i x Hp|i x Hp Hq|i m x Hp Hm|i m l x Hp Hf|i x Hp|i m q u x He Hu Hq|q u x He Hu Hq];
    try (rewrite Hp; cbn; lia); try done.
  - destruct Hp as [E|[E|[E|E]]]; by rewrite E.
  - destruct Hp as [E|[E|E]]; by rewrite E.
  - by destruct (turn_fields size i m q u x) as [-> _].
Qed.
Lemma steps_no B size y y' : rtc (any_step B size) y y' -> batch_no (y_phase y) <= batch_no (y_phase y').
Proof. induction 1 as [|x y z H _ IH]; [done|]. apply step_no in H. lia. Qed.
Lemma step_stop B size y y' : any_step B size y y' -> sh_stop (y_shared y) = true -> sh_stop (y_shared y') = true /\ batch_no (y_phase y') = batch_no (y_phase y).
Proof.
  intros [H|[x He Hp]] Hst; [|done].
  destruct H as [i x Hp Hq|i x Hp|i x Hp|i x Hp|i x Hp Hf|i x Hp Hq Hs|i x Hp Hq Hs|i u x Hp Hu Hq|i x Hp Hu|i x Hp|i x Hp Hq|i m x Hp Hm|i m l x Hp Hf|i x Hp|i m q u x He Hu Hq|q u x He Hu Hq];
    try (rewrite Hp; done); try done.
  - congruence.
  - destruct Hp as [E|[E|[E|E]]]; by rewrite E.
  - destruct Hp as [E|[E|E]]; by rewrite E.
  - destruct (turn_fields size i m q u x) as [-> _]. split; [|done]. unfold ui_turn. destruct (apply_msg _ _ _ _) as [u' s' b|] eqn:E; [|done].
    apply apply_stop in E as [E _]. specialize (E Hst). by destruct b.
Qed.
Lemma step_sent B size y y' : any_step B size y y' -> exists l, y_sent y' = y_sent y ++ l /\ forall j m, (j, m) ∈ l -> j = batch_no (y_phase y') /\ (m <> LTask -> of_batch (B j) m).
Proof.
  assert (Z : forall (x : sys) k, exists l, y_sent x = y_sent x ++ l /\ forall j m, (j, m) ∈ l -> j = k /\ (m <> LTask -> of_batch (B j) m)).
  { intros z k. exists []. rewrite app_nil_r. split; [done|]. by intros j m ?%elem_of_nil. }
  intros [H|[x He Hp]]; [|apply (Z x)].
  destruct H as [i x Hp Hq|i x Hp|i x Hp|i x Hp|i x Hp Hf|i x Hp Hq Hs|i x Hp Hq Hs|i u x Hp Hu Hq|i x Hp Hu|i x Hp|i x Hp Hq|i m x Hp Hm|i m l x Hp Hf|i x Hp|i m q u x He Hu Hq|q u x He Hu Hq]; try apply (Z x).
  - exists [(i, LTask)]. split; [done|]. intros j m E%elem_of_list_singleton. injection E as -> ->. done.
  - exists [(i, m)]. split; [done|]. intros j m' E%elem_of_list_singleton. injection E as -> ->. cbn. rewrite Hp. done.
  - destruct (turn_fields size i m q u x) as (_ & E & _). cbn in E. rewrite E. apply (Z x).
Qed.
Lemma sent_no B size y : reach B size y -> forall j m, (j, m) ∈ y_sent y -> j <= batch_no (y_phase y) /\ (m <> LTask -> of_batch (B j) m).
Proof.
  intros HR. pattern y. apply (run_ind (any_step B size) sys0); [by intros j m ?%elem_of_nil| |exact HR]. clear y HR. intros y z H IH HS. intros j m Hin.
  destruct (step_sent _ _ _ _ HS) as (l & E & Hl). rewrite E in Hin. apply elem_of_app in Hin as [Hin|Hin].
  - destruct (IH _ _ Hin) as [? ?]. split; [|done]. apply step_no in HS. lia.
  - destruct (Hl _ _ Hin) as [-> ?]. done.
Qed.
Lemma stop_end B size y y' : rtc (any_step B size) y y' -> sh_stop (y_shared y) = true ->
  sh_stop (y_shared y') = true /\ batch_no (y_phase y') = batch_no (y_phase y) /\ (forall j m, (j, m) ∈ y_sent y' -> (j, m) ∈ y_sent y \/ j = batch_no (y_phase y)).
Proof.
  intros H Hs. induction H as [y|x y z H _ IH]; [split; [done|]; split; [done|]; by left|].
  destruct (step_stop _ _ _ _ H Hs) as [H1 H2]. destruct (IH H1) as (H3 & H4 & H5). split; [done|]. split; [by rewrite H4|]. intros j m Hin.
  destruct (H5 j m Hin) as [Hy|Hy]; [|right; congruence]. destruct (step_sent _ _ _ _ H) as (l & E & Hl). rewrite E in Hy. apply elem_of_app in Hy as [Hy|Hy]; [by left|].
  right. destruct (Hl j m Hy). congruence.
Qed.

(** ** The invariant in the runs *)
Section runs.
Context (B : nat -> batch) (size n : nat).
Hypothesis HN : numbered B size n.
Lemma reach_inv y : reach B size y -> batch_no (y_phase y) <= n -> inv B size y.
Proof.
  intros HR. pattern y. apply (run_ind (any_step B size) sys0); [intros _; apply inv0| |exact HR]. clear y HR. intros y z H IH HS Hn.
  pose proof (step_no _ _ _ _ HS). apply (inv_step B size n HN y z); [apply IH; lia|done|lia].
Qed.
Lemma applied_sent y j m : inv B size y -> (j, m) ∈ y_applied y -> noisy m = false -> (j, m) ∈ y_sent y.
Proof.
  intros HI Hin Hm. apply elem_heard; [done|]. rewrite (v_sent _ _ _ HI). apply (proj1 (elem_heard j m _ Hm)). unfold history. apply elem_of_app. by left.
Qed.
Lemma sent_history y j m : inv B size y -> (j, m) ∈ y_sent y -> noisy m = false -> (j, m) ∈ history y.
Proof. intros HI Hin Hm. apply elem_heard; [done|]. rewrite <-(v_sent _ _ _ HI). by apply (proj1 (elem_heard j m _ Hm)). Qed.
Lemma report_history y i : inv B size y -> y_phase y = PReport i -> history y = y_applied y.
Proof.
  intros HI Hp. pose proof (v_fwd _ _ _ HI) as Hf. pose proof (v_queue _ _ _ HI) as Hq. rewrite Hp in Hf, Hq. destruct Hq as [Hq _]. unfold history.
  rewrite Hq, Hf. cbn. by rewrite app_nil_r.
Qed.
Lemma last_failing (l : list (nat * lmsg)) : (exists j m, (j, m) ∈ l /\ fails m) ->
  exists l1 j m l2, l = l1 ++ (j, m) :: l2 /\ fails m /\ forall j' m', (j', m') ∈ l2 -> ~ fails m'.
Proof.
  induction l as [|[j m] l IH] using rev_ind; [by intros (j & m & ?%elem_of_nil & _)|]. intros (j0 & m0 & Hin & Hf). destruct (fails_dec m) as [Hm|Hm].
  - exists l, j, m, []. split; [done|]. split; [done|]. by intros j' m' ?%elem_of_nil.
  - destruct IH as (l1 & j1 & m1 & l2 & -> & Hf1 & Hl).
    + exists j0, m0. split; [|done]. apply elem_of_app in Hin as [Hin|Hin]; [done|]. apply elem_of_list_singleton in Hin. injection Hin as -> ->. done.
    + exists l1, j1, m1, (l2 ++ [(j, m)]). split; [by rewrite <-app_assoc|]. split; [done|]. intros j' m' [Hin'|Hin']%elem_of_app; [by apply (Hl j')|].
      apply elem_of_list_singleton in Hin'. injection Hin' as -> ->. done.
Qed.
Lemma wf_elem_ge l k j m tc : wf B k l -> (j, m) ∈ l -> about m = Some tc -> k <= S j.
Proof.
  revert k. induction l as [|[j' m'] l IH]; intros k; [by intros _ ?%elem_of_nil|]. cbn [wf]. intros (_ & H & W) [E|E]%elem_of_cons Hm.
  - injection E as <- <-. destruct (H tc Hm) as [-> ?]. done.
  - specialize (IH _ W E Hm). destruct (is_task m'); lia.
Qed.
Lemma fails_about m : fails m -> exists tc, about m = Some tc.
Proof. intros (tc & ms & sc & -> & _). by exists tc. Qed.

Lemma final_found y i : reach B size y -> y_phase y = PReport i -> i <= n -> (exists m, (i, m) ∈ y_sent y /\ fails m) ->
  exists m tc msg d, (i, m) ∈ y_sent y /\ failing_score m tc msg /\ B i !! tc = Some d /\ sh_failing (y_shared y) = Some (d, msg).
Proof.
  intros HR Hp Hn (m & Hin & Hf). pose proof (reach_inv y HR ltac:(by rewrite Hp)) as HI. pose proof (report_history y i HI Hp) as EH.
  pose proof (sent_history y i m HI Hin (fails_heard _ Hf)) as HA. rewrite EH in HA.
  destruct (last_failing (y_applied y) ltac:(by exists i, m)) as (l1 & j & m' & l2 & E & Hf' & Hl).
  assert (Ej : j = i).
  { pose proof (v_wf _ _ _ HI) as W. pose proof (v_tasks _ _ _ HI) as T. rewrite Hp in T. cbn in T. rewrite EH in W, T.
    destruct (fails_about _ Hf') as [tc' Ha']. destruct (fails_about _ Hf) as [tc Ha]. assert (Hj : (j, m') ∈ y_applied y) by (rewrite E; apply elem_of_app; right; by left).
    destruct (wf_elem B _ 0 j m' tc' W Hj Ha') as [Hj1 _]. assert (i <= j); [|lia]. rewrite E in HA. apply elem_of_app in HA as [HA|[HA|HA]%elem_of_cons].
    - rewrite E in W. apply wf_app in W as [W1 [_ [W2 _]]]. destruct (wf_elem B _ 0 i m tc W1 HA Ha) as [H1 _]. destruct (W2 tc' Ha') as [H2 _]. lia.
    - by injection HA as <- <-.
    - destruct (Hl i m HA Hf). }
  subst j. destruct Hf' as (tc & msg & Hfs). destruct (v_final _ _ _ HI ltac:(by rewrite Hp) l1 i m' l2 tc msg E Hfs Hl ltac:(by rewrite Hp)) as (d & Hd & HF).
  exists m', tc, msg, d. split; [|done]. apply applied_sent; [done| |by apply fails_heard; exists tc, msg]. rewrite E. apply elem_of_app. right. by left.
Qed.

(** ** Runs where the UI is never late *)
Lemma prompt_reach y : reach_prompt B size y -> reach B size y.
Proof. intros HR. pattern y. apply (run_ind (prompt_step B size) sys0); [constructor| |exact HR]. clear y HR. intros y z H IH HS. eapply rtc_r; [exact IH|]. apply HS. Qed.
Record prompt_inv (y : sys) : Prop := {
  pr_ui : y_ui y <> UiCrash;
  pr_phase : forall i, y_phase y <> PPanic i;
  pr_queue : forall j m, (j, m) ∈ qmsgs (y_queue y) -> about m <> None -> j = batch_no (y_phase y);
  pr_fails : forall j m, (j, m) ∈ history y -> fails m -> j = batch_no (y_phase y)
}.
Lemma prompt_step_inv y y' : inv B size y -> prompt_inv y -> prompt_step B size y y' -> batch_no (y_phase y) <= n -> inv B size y' -> prompt_inv y'.
Proof.
  intros HI [p1 p2 p3 p4] [HS HP] Hn HI'. pose proof (v_ui _ _ _ HI) as HU. pose proof (v_fwd _ _ _ HI) as HF.
  (* steps that leave the messages and the batch where they are *)
  assert (SAME : y_ui y' = y_ui y -> (forall i, y_phase y' <> PPanic i) -> y_queue y' = y_queue y \/ y_queue y' = y_queue y ++ [QStop] -> y_applied y' = y_applied y -> y_fwd y' = y_fwd y ->
    batch_no (y_phase y') = batch_no (y_phase y) -> prompt_inv y').
  { intros E1 E2 E3 E4 E5 E6. assert (EQ : qmsgs (y_queue y') = qmsgs (y_queue y)) by (destruct E3 as [-> | ->]; [done|]; by rewrite qmsgs_app, app_nil_r).
    split; [by rewrite E1|done|by rewrite EQ, E6|]. unfold history. by rewrite E4, EQ, E5, E6. }
  assert (PS : y_poisoned y = false) by (destruct (y_ui y); [by destruct HU as (_ & ? & _)|by destruct HU as (_ & ? & _)|done]).
  destruct HS as [HS|HS].
  2:{ destruct HS as [x He Hp]. apply SAME; cbn; try done. by left. }
  destruct HS as [i x Hp Hq|i x Hp|i x Hp|i x Hp|i x Hp Hf|i x Hp Hq Hs|i x Hp Hq Hs|i u x Hp Hu Hq|i x Hp Hu|i x Hp|i x Hp Hq|i m x Hp Hm|i m l x Hp Hf|i x Hp|i m q u x He Hu Hq|q u x He Hu Hq].
  - apply SAME; cbn; rewrite ?Hp; try done. by left.
  - rewrite Hp in *. split; cbn; [done|done|done|]. intros j m. unfold history. cbn. rewrite HF. cbn. rewrite app_assoc. intros [Hin|Hin]%elem_of_app Hm.
    + apply (p4 j m); [|done]. unfold history. rewrite HF. cbn. by rewrite app_nil_r.
    + apply elem_of_list_singleton in Hin. by injection Hin as -> ->.
  - apply SAME; cbn; rewrite ?Hp; try done. by left.
  - apply SAME; cbn; rewrite ?Hp; try done. by left.
  - apply SAME; cbn; rewrite ?Hp; try done. by left.
  - apply SAME; cbn; rewrite ?Hp; try done. by right.
  - assert (EQ : y_queue x = []) by (by apply (HP i)). split; cbn; [done|done| |].
    + rewrite EQ. by intros j m ?%elem_of_nil.
    + intros j m. unfold history. cbn. rewrite EQ. rewrite Hp in HF. rewrite HF. cbn. rewrite app_nil_r. intros Hin Hm. pose proof (v_stop _ _ _ HI j m Hin Hm). congruence.
  - apply SAME; cbn; rewrite ?Hp; try done. by left.
  - done.
  - assert (Ei : batch_no (y_phase x) = i) by (destruct Hp as [-> | [-> | [-> | ->]]]; done). apply SAME; cbn; try done. by left.
  - congruence.
  - split; cbn; [done|done|done|]. intros j m'. unfold history. cbn. rewrite map_app, !app_assoc. intros [Hin|Hin]%elem_of_app Hm'.
    + apply (p4 j m'); [|done]. unfold history. by rewrite app_assoc.
    + apply elem_of_list_singleton in Hin. by injection Hin as -> ->.
  - assert (Ei : batch_no (y_phase x) = i) by (destruct Hp as [-> | [-> | ->]]; done). split; cbn; [done|done| |].
    + intros j m'. rewrite qmsgs_app. intros [Hin|Hin]%elem_of_app Hm'; [by apply (p3 j m')|]. apply elem_of_list_singleton in Hin. by injection Hin as -> ->.
    + intros j m' Hin. apply p4. unfold history in *. cbn in Hin. rewrite qmsgs_app in Hin. rewrite Hf. cbn in *. rewrite Ei in *. by rewrite <-(app_assoc (qmsgs (y_queue x))) in Hin.
  - split; cbn; [done|done| |].
    + intros j m'. rewrite qmsgs_app. intros [Hin|Hin]%elem_of_app Hm'; [by apply (p3 j m')|]. apply elem_of_list_singleton in Hin. injection Hin as -> ->. done.
    + intros j m' Hin Hm'. apply (p4 j m'); [|done]. unfold history in *. cbn in Hin. rewrite qmsgs_app in Hin. rewrite !elem_of_app in *. destruct Hin as [?|[[?|Hin]|?]]; [tauto|tauto| |tauto].
      apply elem_of_list_singleton in Hin. injection Hin as -> ->. by destruct Hm' as (? & ? & ? & ? & ?).
  - assert (EH : history x = (y_applied x ++ [(i, m)]) ++ qmsgs q ++ map (pair (batch_no (y_phase x))) (y_fwd x)).
    { unfold history. rewrite Hq. cbn. by rewrite <-app_assoc. }
    destruct (turn_fields size i m q u x) as (E1 & _ & E3 & E4). cbn in E1, E3, E4.
    assert (EF : y_fwd (ui_turn size i m q u x) = y_fwd x) by (unfold ui_turn; destruct (apply_msg _ _ _ _) as [? ? []|]; done). split.
    + pose proof (v_ui _ _ _ HI') as HU'. intros EC. rewrite EC in HU'.
      (* the message is about the batch that is known *)
      pose proof (v_wf _ _ _ HI) as W. rewrite EH in W. apply wf_app in W as [W _]. pose proof (v_tasks _ _ _ HI) as T.
      rewrite EH, tasks_app in T. assert (HT : tasks (y_applied x ++ [(i, m)]) <= S n) by (destruct (y_phase x); cbn in *; lia). rewrite Hu in HU. destruct HU as (u1 & u2 & u3 & u4).
      pose proof (proj2 (proj1 (wf_app B _ _ _) W)) as (_ & Wm & _).
      assert (HL : about m <> None -> known (y_phase x) = Some i).
      { intros Ha. pose proof (p3 i m) as Hi. rewrite Hq in Hi. specialize (Hi ltac:(by left) Ha). destruct (about m) as [tc|] eqn:Em; [|done]. destruct (Wm tc eq_refl) as [Wt _]. rewrite tasks_app in T.
        destruct (y_phase x) as [[|k]|k|k|k|k|k|k|k|k|k]; cbn in *; try lia; by subst. }
      assert (L : lost (y_phase x) = false) by (destruct (y_phase x); done).
      destruct (apply_spec B size n HN u (y_shared x) (y_applied x) i m (B i) u1 W HT) as [(u' & s' & b & EA & _)|(EA & tc & msg & r & Hbr & Hnone)]; [|done|done| |].
      * intros Ha. rewrite (v_last _ _ _ HI L). by rewrite (HL Ha).
      * unfold ui_turn in EC. rewrite EA in EC. by destruct b.
      * destruct (Wm tc) as [_ [d Hd]]; [by destruct Hbr as [_ [[-> _]|[-> _]]]|]. congruence.
    + intros k. rewrite E1. apply p2.
    + rewrite E4, E1. intros j m' Hin. apply p3. rewrite Hq. cbn. by right.
    + unfold history. rewrite E1, E3, E4, EF, <-EH. apply p4.
  - split; cbn; [done|exact p2| |].
    + intros j m Hin. apply p3. rewrite Hq. exact Hin.
    + intros j m Hin. apply p4. unfold history in *. cbn in Hin. by rewrite Hq.
Qed.
Lemma reach_prompt_inv y : reach_prompt B size y -> batch_no (y_phase y) <= n -> prompt_inv y.
Proof.
  intros HR. pattern y. apply (run_ind (prompt_step B size) sys0); [| |exact HR]; clear y HR; [|intros y z H IH HS Hn].
  - intros _. split; cbn; try done. by intros j m ?%elem_of_nil. by intros j m ?%elem_of_nil.
  - assert (HY : reach B size y) by (by apply prompt_reach). assert (HZ : reach B size z) by (eapply rtc_r; [exact HY|apply HS]). pose proof (step_no _ _ _ _ (proj1 HS)).
    apply (prompt_step_inv y z); [apply reach_inv; [done|lia]|apply IH; lia|done|lia|by apply reach_inv].
Qed.
End runs.
