(** * BadLoopProps: property C74, the search of find-bad-case *)
From Verif Require Import BadLoopModel BadLoopSpec BadLoopProofs BadLoopProofs2 BadLoopProofs3 BadLoopProofs4 BadCaseSpec BadCaseProofs BadCaseProps.
From Coq Require Import Ascii String.
From stdpp Require Import base list.

(** The batches of [BadCaseProps] are numbered. *)
Theorem C74_numbered : forall t v user size dir seeds (ts : nat -> btask) B n,
  (forall i, i <= n -> batch_task t v user size i dir (seeds i) (ts i) (B i)) -> numbered B size n.
Proof.
  intros t v user size dir seeds ts B n H i tc Hi Htc. destruct (H i Hi) as [_ Ho _ _]. destruct (Ho tc (or_introl Htc)) as (x & Hx & ->). by exists x.
Qed.
Print Assumptions C74_numbered.

(** ** What is reported is true *)
(** The bad case that is reported is a testcase of a batch on which the solution did not get the full score, with its message. *)
Theorem C74_found : forall B size n y d message, numbered B size n -> reach B size y -> batch_no (y_phase y) <= n ->
  sh_failing (y_shared y) = Some (d, message) ->
  exists i m tc, (i, m) ∈ y_sent y /\ failing_score m tc message /\ B i !! tc = Some d.
Proof.
  intros B size n y d message HN HR Hn H. pose proof (reach_inv B size n HN y HR Hn) as HI. destruct (v_found _ _ _ HI d message H) as (i & m & tc & Hin & Hf & Hd).
  exists i, m, tc. split; [|done]. apply (applied_sent B size y); [done|done|]. apply fails_heard. by exists tc, message.
Qed.
Print Assumptions C74_found.
(** The testcase that is reported as not made is one whose generator or validator failed, with its result. *)
Theorem C74_errored : forall B size n y d message r, numbered B size n -> reach B size y -> batch_no (y_phase y) <= n ->
  sh_errored (y_shared y) = Some (d, message, r) ->
  exists i m tc, (i, m) ∈ y_sent y /\ broken m tc message r /\ B i !! tc = Some d.
Proof.
  intros B size n y d message r HN HR Hn H. pose proof (reach_inv B size n HN y HR Hn) as HI. destruct (v_errored _ _ _ HI d message r H) as (i & m & tc & Hin & Hf & Hd).
  exists i, m, tc. split; [|done]. apply (applied_sent B size y); [done|done|]. by destruct Hf as [_ [[-> _]|[-> _]]].
Qed.
Print Assumptions C74_errored.

(** ** What is found is reported *)
(** A bad case of the last batch is reported. *)
Theorem C74_last_batch : forall B size n y i, numbered B size n -> reach B size y -> y_phase y = PReport i -> i <= n ->
  (exists m, (i, m) ∈ y_sent y /\ fails m) ->
  exists m tc message d, (i, m) ∈ y_sent y /\ failing_score m tc message /\ B i !! tc = Some d /\ sh_failing (y_shared y) = Some (d, message).
Proof. intros B size n y i HN. by apply final_found. Qed.
Print Assumptions C74_last_batch.
(** If the UI is never late nothing panics, the batch with a bad case is the last one, and a bad case is reported if and
    only if there is one. *)
Theorem C74_prompt : forall B size n y, numbered B size n -> reach_prompt B size y -> batch_no (y_phase y) <= n ->
  (forall i, y_phase y <> PPanic i) /\ y_ui y <> UiCrash /\
  (forall i m, (i, m) ∈ y_sent y -> fails m -> i = batch_no (y_phase y)) /\
  (forall i, y_phase y = PReport i -> (sh_failing (y_shared y) = None <-> forall j m, (j, m) ∈ y_sent y -> ~ fails m)).
Proof.
  intros B size n y HN HR Hn. pose proof (reach_prompt_inv B size n HN y HR Hn) as [p1 p2 p3 p4]. pose proof (prompt_reach B size y HR) as HR'.
  pose proof (reach_inv B size n HN y HR' Hn) as HI. split; [done|]. split; [done|]. assert (PF : forall i m, (i, m) ∈ y_sent y -> fails m -> i = batch_no (y_phase y)).
  { intros i m Hin Hf. apply (p4 i m); [|done]. apply (sent_history B size); [done|done|by apply fails_heard]. }
  split; [done|]. intros i Hp. split.
  - intros HF j m Hin Hf. pose proof (PF j m Hin Hf) as ->. rewrite Hp in Hin, Hn. cbn in Hin, Hn.
    destruct (final_found B size n HN y i HR' Hp Hn) as (m' & tc & msg & d & _ & _ & _ & E); [by exists m|]. congruence.
  - intros HF. destruct (sh_failing (y_shared y)) as [[d msg]|] eqn:E; [|done]. destruct (C74_found B size n y d msg HN HR' Hn E) as (j & m & tc & Hin & Hf & _).
    destruct (HF j m Hin). by exists tc, msg.
Qed.
Print Assumptions C74_prompt.

(** ** When it stops *)
(** After a bad case is seen, or ctrl-c, the current batch is the last one. *)
Theorem C74_stop : forall B size y y', rtc (any_step B size) y y' -> sh_stop (y_shared y) = true ->
  sh_stop (y_shared y') = true /\ batch_no (y_phase y') = batch_no (y_phase y) /\
  (forall j m, (j, m) ∈ y_sent y' -> (j, m) ∈ y_sent y \/ j = batch_no (y_phase y)).
Proof. exact stop_end. Qed.
Print Assumptions C74_stop.
(** Both ask the evaluation that is running to stop. *)
Theorem C74_told : forall B size n y y' i, numbered B size n -> reach B size y -> i <= n -> any_step B size y y' -> y_phase y = PEval i ->
  sh_stop (y_shared y) = false -> sh_stop (y_shared y') = true -> i ∈ y_stopped y'.
Proof.
  intros B size n y y' i HN HR Hn HS Hp H0 H1. pose proof (reach_inv B size n HN y HR ltac:(by rewrite Hp)) as HI. pose proof (v_sender _ _ _ HI) as Hs. rewrite Hp in Hs. specialize (Hs eq_refl).
  destruct HS as [HS|HS].
  - destruct HS as [k x Hp' Hq|k x Hp'|k x Hp'|k x Hp'|k x Hp' Hf|k x Hp' Hq Hst|k x Hp' Hq Hst|k u x Hp' Hu Hq|k x Hp' Hu|k x Hp'|k x Hp' Hq|k m x Hp' Hm|k m l x Hp' Hf|k x Hp'|k m q u x He Hu Hq|q u x He Hu Hq]; cbn in H1; try congruence.
    unfold ui_turn in *. destruct (apply_msg size u (y_shared x) m) as [u' s' b|] eqn:E; [|cbn in H1; congruence].
    assert (E2 : sh_stop s' = true) by (destruct b; exact H1). apply apply_stop in E as [_ E]. destruct (E H0 E2) as [_ ->]. cbn. rewrite Hs. apply elem_of_app. right. by left.
  - destruct HS as [x He Hq]. cbn. rewrite Hs. apply elem_of_app. right. by left.
Qed.
Print Assumptions C74_told.
(** Without ctrl-c the search ends only after a bad case. *)
Theorem C74_reason : forall B size n y i, numbered B size n -> reach_alone B size y -> i <= n -> y_phase y = PWait i \/ y_phase y = PReport i ->
  exists j m, (j, m) ∈ y_sent y /\ fails m.
Proof.
  intros B size n y i HN HA Hn Hp. assert (HR : reach B size y).
  { unfold reach_alone in HA. unfold reach. apply (rtc_subrel (step B size)); [|done]. intros a b H. by left. }
  assert (G : (sh_stop (y_shared y) = true -> exists j m, (j, m) ∈ y_applied y /\ fails m) /\ match y_phase y with PWait _ | PReport _ => sh_stop (y_shared y) = true | _ => True end).
  { clear HR Hp. pattern y. apply (run_ind (step B size) sys0); [done| |exact HA]. clear y HA. intros y z _ [IH1 IH2] HS.
    destruct HS as [k x Hp' Hq|k x Hp'|k x Hp'|k x Hp'|k x Hp' Hf|k x Hp' Hq Hst|k x Hp' Hq Hst|k u x Hp' Hu Hq|k x Hp' Hu|k x Hp'|k x Hp' Hq|k m x Hp' Hm|k m l x Hp' Hf|k x Hp'|k m q u x He Hu Hq|q u x He Hu Hq]; try (split; [done|]; cbn; done).
    - cbn. rewrite Hp' in IH2. done.
    - destruct (turn_fields size k m q u x) as (E1 & _ & E3 & _). cbn in E1, E3. rewrite E1, E3. destruct (apply_msg size u (y_shared x) m) as [u' s' b|] eqn:E.
      + assert (ES : y_shared (ui_turn size k m q u x) = s') by (unfold ui_turn; rewrite E; by destruct b).
        apply apply_stop in E as [Ea Eb]. rewrite ES. split.
        * intros H. destruct (sh_stop (y_shared x)) eqn:Es.
          -- destruct (IH1 eq_refl) as (j & m' & Hin & Hf). exists j, m'. split; [apply elem_of_app; by left|done].
          -- destruct (Eb eq_refl H) as [Hf _]. exists k, m. split; [apply elem_of_app; right; by left|done].
        * destruct (y_phase x); auto.
      + assert (ES : y_shared (ui_turn size k m q u x) = y_shared x) by (unfold ui_turn; by rewrite E).
        rewrite ES. split; [|done]. intros H. destruct (IH1 H) as (j & m' & Hin & Hf). exists j, m'. split; [apply elem_of_app; by left|done]. }
  destruct G as [G1 G2]. destruct G1 as (j & m & Hin & Hf); [by destruct Hp as [E|E]; rewrite E in G2|]. exists j, m. split; [|done].
  apply (applied_sent B size y); [|done|by apply fails_heard]. apply (reach_inv B size n HN); [done|]. destruct Hp as [-> | ->]; done.
Qed.
Print Assumptions C74_reason.
(** It never gets stuck, *)
Theorem C74_progress : forall B size n y, numbered B size n -> reach B size y -> batch_no (y_phase y) <= n -> ended (y_phase y) = false -> y_ui y <> UiCrash ->
  exists y', step B size y y' /\ forall i, y_phase y' <> PError i /\ y_phase y' <> PPanic i.
Proof.
  intros B size n y HN HR Hn He Hu. pose proof (reach_inv B size n HN y HR Hn) as [h1 h2 h3 h4 h5 h6 h7 h8 h9 h10 h11 h12].
  assert (PS : y_poisoned y = false) by (destruct (y_ui y); [by destruct h6 as (_ & ? & _)|by destruct h6 as (_ & ? & _)|done]).
  destruct (y_phase y) as [i|i|i|i|i|i|i|i|i|i] eqn:Hp; try done.
  - eexists. split; [by apply (step_set _ _ i)|done].
  - eexists. split; [by apply (step_build _ _ i)|done].
  - eexists. split; [by apply (step_connect _ _ i)|done].
  - eexists. split; [by apply (step_evaluated _ _ i)|done].
  - destruct (y_fwd y) as [|m l] eqn:Ef.
    + eexists. split; [by apply (step_joined _ _ i)|done].
    + eexists. split; [apply (step_forward _ _ i m l); [by right; right|done]|]. cbn. by rewrite Hp.
  - destruct (sh_stop (y_shared y)) eqn:Es.
    + eexists. split; [by apply (step_break _ _ i)|done].
    + eexists. split; [by apply (step_next _ _ i)|done].
  - destruct (y_ui y) as [u|u|] eqn:Eu; [| |done].
    + destruct h4 as (l & Eq & _). destruct (y_queue y) as [|[j m|] q] eqn:Eq'; [by destruct l| |].
      * eexists. split; [apply (step_ui _ _ j m q u); by rewrite ?Hp|]. destruct (turn_fields size j m q u y) as (E & _). cbn in E. rewrite E. by rewrite Hp.
      * eexists. split; [apply (step_ui_end _ _ q u); by rewrite ?Hp|]. cbn. by rewrite Hp.
    + eexists. split; [by apply (step_report _ _ i u)|done].
Qed.
Print Assumptions C74_progress.
(** and after the last batch it ends. *)
Theorem C74_ends : forall B size y y' i, step B size y y' -> y_phase y = PWait i ->
  ended (y_phase y') = true \/ y_phase y' = PWait i /\ length (y_queue y') < length (y_queue y).
Proof.
  intros B size y y' i HS Hp.
  destruct HS as [k x Hp' Hq|k x Hp'|k x Hp'|k x Hp'|k x Hp' Hf|k x Hp' Hq Hst|k x Hp' Hq Hst|k u x Hp' Hu Hq|k x Hp' Hu|k x Hp'|k x Hp' Hq|k m x Hp' Hm|k m l x Hp' Hf|k x Hp'|k m q u x He Hu Hq|q u x He Hu Hq]; try congruence; try (by left).
  - rewrite Hp in Hp'. by destruct Hp' as [?|[?|?]].
  - right. destruct (turn_fields size k m q u x) as (E1 & _ & _ & E4). cbn in E1, E4. rewrite E1, E4, Hq. split; [done|cbn; lia].
  - right. rewrite Hq. split; [done|cbn; lia].
Qed.
Print Assumptions C74_ends.

(** ** What is shown *)
(** The UI shows, for each testcase of each batch, what the messages about that testcase say, and how many inputs were made and solved;
    it takes the messages in the order they are sent. *)
Theorem C74_shown : forall B size n y u, numbered B size n -> reach B size y -> batch_no (y_phase y) <= n -> y_ui y = UiRun u \/ y_ui y = UiDone u ->
  (exists rest, heard (y_sent y) = heard (y_applied y) ++ rest) /\
  length (u_batches u) = count is_task (y_applied y) /\
  (forall k l, rev (u_batches u) !! k = Some l -> length l = size /\ forall x, x < size -> l !! x = Some (status_after (y_applied y) (k * size + x))) /\
  u_generated u = count gen_done (y_applied y) /\ u_solved u = count eval_done (y_applied y).
Proof.
  intros B size n y u HN HR Hn Hu. pose proof (reach_inv B size n HN y HR Hn) as HI. split.
  - rewrite (v_sent _ _ _ HI). unfold history. rewrite heard_app. by eexists.
  - pose proof (v_ui _ _ _ HI) as H. destruct Hu as [E|E]; rewrite E in H; destruct H as ((h1 & h2) & _ & h3 & h4); done.
Qed.
Print Assumptions C74_shown.
(** The batches that are shown are those that started. *)
Theorem C74_shown_batches : forall B size n y u, numbered B size n -> reach B size y -> batch_no (y_phase y) <= n -> y_ui y = UiRun u \/ y_ui y = UiDone u ->
  length (u_batches u) <= S (batch_no (y_phase y)) /\ (forall i, y_phase y = PReport i -> length (u_batches u) = S i).
Proof.
  intros B size n y u HN HR Hn Hu. pose proof (reach_inv B size n HN y HR Hn) as HI. destruct (C74_shown B size n y u HN HR Hn Hu) as (_ & E & _). rewrite E. clear E.
  pose proof (v_tasks _ _ _ HI) as T. change (count is_task) with tasks. assert (L : tasks (y_applied y) <= tasks (history y)) by (unfold history; rewrite tasks_app; lia). split.
  - destruct (y_phase y); cbn in *; lia.
  - intros i Hp. rewrite <-(report_history B size y i HI Hp). by rewrite Hp in T.
Qed.
Print Assumptions C74_shown_batches.

(** ** The files *)
(** The files of the bad case are copied next to the task; nothing else changes. *)
Theorem C74_copied : forall fs task d fs' input correct failing, task <> "" -> copy_case fs task d = Some (fs', input, correct, failing) ->
  let file name := task +:+ "/fuzz/bad-cases/seed-" +:+ pretty (cd_seed d) +:+ "/" +:+ name in
  (forall name, cd_correct d <> file name /\ cd_output d <> file name) ->
  input = file "input.txt" /\ is_Some (fs !! cd_input d) /\ fs' !! input = fs !! cd_input d /\
  correct = match fs !! cd_correct d with Some _ => Some (file "correct-output.txt") | None => None end /\
  failing = match fs !! cd_output d with Some _ => Some (file "failing-output.txt") | None => None end /\
  (forall p, correct = Some p -> fs' !! p = fs !! cd_correct d) /\ (forall p, failing = Some p -> fs' !! p = fs !! cd_output d) /\
  (forall p, p <> input -> correct <> Some p -> failing <> Some p -> fs' !! p = fs !! p).
Proof.
  intros fs task d fs' input correct failing Ht H file Hne. unfold copy_case, files in H. unfold files in fs, fs'. revert Hne. unfold files. intros Hne.
  assert (PJ : forall a, a <> "" -> forall b, starts_with_slash b = false -> path_join a b = a +:+ "/" +:+ b).
  { intros a Ha b Hb. unfold path_join. rewrite Hb. by rewrite bool_decide_false. }
  assert (EF : forall name, starts_with_slash name = false -> path_join (path_join task ("fuzz/bad-cases/seed-" +:+ pretty (cd_seed d))) name = file name).
  { intros name Hn. rewrite (PJ task Ht) by done. rewrite PJ; [|by destruct task|done]. unfold file. by rewrite !app_str_assoc. }
  rewrite (EF "input.txt"), (EF "correct-output.txt"), (EF "failing-output.txt") in H by done.
  assert (INJ : forall a b, file a = file b -> a = b).
  { intros a b E. unfold file in E. apply (f_equal list_ascii_of_string) in E.
    assert (A : forall x y, list_ascii_of_string (x +:+ y) = list_ascii_of_string x ++ list_ascii_of_string y) by (intros x y; induction x as [|c x IH]; [done|]; exact (f_equal (cons c) IH)).
    rewrite !A in E. repeat (apply app_inv_head in E). apply (f_equal string_of_list_ascii) in E. by rewrite !string_of_list_ascii_of_string in E. }
  assert (N1 : file "input.txt" <> file "correct-output.txt") by (intros E%INJ; done).
  assert (N2 : file "input.txt" <> file "failing-output.txt") by (intros E%INJ; done).
  assert (N3 : file "correct-output.txt" <> file "failing-output.txt") by (intros E%INJ; done).
  destruct (fs !! cd_input d) as [c|] eqn:Ei; [|done].
  assert (HC : forall name, file name <> cd_correct d) by (intros name E; by destruct (Hne name)).
  assert (HO : forall name, file name <> cd_output d) by (intros name E; by destruct (Hne name)).
  rewrite (lookup_insert_ne fs (file "input.txt") (cd_correct d)) in H by apply HC.
  destruct (fs !! cd_correct d) as [c2|] eqn:Ec.
  - cbn beta iota in H. rewrite lookup_insert_ne, lookup_insert_ne in H; [|apply HO|apply HO].
    destruct (fs !! cd_output d) as [c3|] eqn:Eo; injection H as <- <- <- <-.
    + split; [done|]. split; [by eexists|]. split; [by rewrite lookup_insert_ne, lookup_insert_ne, lookup_insert|]. split; [done|]. split; [done|].
      split; [intros p E; injection E as <-; by rewrite lookup_insert_ne, lookup_insert|]. split; [intros p E; injection E as <-; by rewrite lookup_insert|].
      intros p P1 P2 P3. rewrite !lookup_insert_ne; [done|congruence..].
    + split; [done|]. split; [by eexists|]. split; [by rewrite lookup_insert_ne, lookup_insert|]. split; [done|]. split; [done|].
      split; [intros p E; injection E as <-; by rewrite lookup_insert|]. split; [done|].
      intros p P1 P2 P3. rewrite !lookup_insert_ne; [done|congruence..].
  - cbn beta iota in H. rewrite lookup_insert_ne in H; [|apply HO]. destruct (fs !! cd_output d) as [c3|] eqn:Eo; injection H as <- <- <- <-.
    + split; [done|]. split; [by eexists|]. split; [by rewrite lookup_insert_ne, lookup_insert|]. split; [done|]. split; [done|]. split; [done|].
      split; [intros p E; injection E as <-; by rewrite lookup_insert|]. intros p P1 P2 P3. rewrite !lookup_insert_ne; [done|congruence..].
    + split; [done|]. split; [by eexists|]. split; [by rewrite lookup_insert|]. split; [done|]. split; [done|]. split; [done|]. split; [done|].
      intros p P1 P2 P3. rewrite !lookup_insert_ne; [done|congruence..].
Qed.
Print Assumptions C74_copied.
(** What is printed of a file is its beginning, at most 256 bytes; a plain file is always printed. *)
Lemma cut_spec k l l' : cut_at k l = Some l' -> text_len l' = k /\ exists r, l = l' ++ r.
Proof.
  revert k l'. induction l as [|c l IH]; intros k l'; cbn.
  - destruct (decide (k = 0)) as [->|]; [|done]. injection 1 as <-. split; [done|by exists []].
  - destruct (decide (k = 0)) as [->|]; [injection 1 as <-; split; [done|by exists (c :: l)]|]. destruct (decide (char_len c <= k)); [|done].
    destruct (cut_at (k - char_len c) l) as [l1|] eqn:E; [|done]. injection 1 as <-. destruct (IH _ _ E) as [E1 [r ->]]. split; [|by exists r].
    change (text_len (c :: l1)) with (char_len c + text_len l1). lia.
Qed.
Lemma cut_ascii k l : Forall (fun c => (c < 128)%N) l -> k <= length l -> exists l', cut_at k l = Some l'.
Proof.
  intros H. revert k. induction H as [|c l Hc H IH]; intros k; cbn; intros Hk; [assert (k = 0) as -> by lia; by eexists|].
  destruct (decide (k = 0)); [by eexists|]. assert (E : char_len c = 1) by (unfold char_len; by rewrite (proj2 (N.ltb_lt _ _) Hc)). rewrite E, decide_True by lia.
  destruct (IH (k - 1)) as [l' ->]; [lia|]. by eexists.
Qed.
Theorem C74_printed : forall l,
  (forall l' dots, shown_text l = Some (l', dots) -> (exists r, l = l' ++ r) /\ text_len l' <= 256 /\ (dots = true <-> 256 < text_len l) /\ (dots = false -> l' = l)) /\
  (Forall (fun c => (c < 128)%N) l -> is_Some (shown_text l)).
Proof.
  intros l. unfold shown_text. split.
  - intros l' dots. destruct (decide (256 < text_len l)) as [Hl|Hl].
    + destruct (cut_at 256 l) as [x|] eqn:E; [|done]. injection 1 as <- <-. destruct (cut_spec _ _ _ E) as [E1 E2]. split; [done|]. split; [lia|]. done.
    + injection 1 as <- <-. split; [exists []; by rewrite app_nil_r|]. split; [lia|]. split; [split; [done|lia]|done].
  - intros HA. destruct (decide (256 < text_len l)) as [Hl|Hl]; [|by eexists]. assert (EL : text_len l = length l).
    { clear Hl. induction HA as [|c l Hc H IH]; [done|]. change (text_len (c :: l)) with (char_len c + text_len l). rewrite IH. unfold char_len. by rewrite (proj2 (N.ltb_lt _ _) Hc). }
    destruct (cut_ascii 256 l HA ltac:(lia)) as [l' ->]. by eexists.
Qed.
Print Assumptions C74_printed.

(** ** What does not hold *)
Definition ex_case (i : nat) : case_data := case_for "/tmp/x" ["{}"] (1000 + i).
Definition ex_B (i : nat) : batch := {[ i := ex_case i ]}.
Lemma ex_numbered n : numbered ex_B 1 n.
Proof. intros i tc _ [d Hd]. unfold ex_B in Hd. apply lookup_singleton_Some in Hd as [<- _]. exists 0. lia. Qed.
Definition ex_zero : f64 := S754_zero false.
Definition ex_bad : exec_result := ExecResult (ReturnCode 1) false false (Resources 0 0 0 0) None None.
Ltac go X := eapply rtc_l; [left; eapply X; cbn; first [reflexivity | by eauto]|]; cbn -[ex_B].
Ltac ui := eapply rtc_l; [left; eapply step_ui; reflexivity|]; unfold ui_turn; cbn.

(** A bad case that the UI shows after the next batch has started is lost: the search ends and says there is none. *)
Theorem C74_late_refuted : exists y m, reach ex_B 1 y /\ y_phase y = PReport 1 /\ (0, m) ∈ y_sent y /\ fails m /\ sh_failing (y_shared y) = None.
Proof.
  eexists _, (LScore 0 ex_zero "wrong"). split; [unfold reach, sys0|].
  - go (step_set ex_B 1 0). go (step_build ex_B 1 0). go (step_connect ex_B 1 0).
    eapply rtc_l; [left; apply (step_send ex_B 1 0 (LScore 0 ex_zero "wrong")); [done|by exists (ex_case 0)]|]. cbn -[ex_B].
    go (step_evaluated ex_B 1 0). go (step_forward ex_B 1 0). go (step_forward ex_B 1 0). go (step_joined ex_B 1 0). go (step_next ex_B 1 0). go (step_set ex_B 1 1).
    ui. ui. go (step_build ex_B 1 1). go (step_connect ex_B 1 1). go (step_forward ex_B 1 1). go (step_evaluated ex_B 1 1). go (step_joined ex_B 1 1). go (step_break ex_B 1 1).
    ui. eapply rtc_l; [left; eapply step_ui_end; reflexivity|]. cbn. go (step_report ex_B 1 1). apply rtc_refl.
  - cbn. split; [done|]. split; [right; by left|]. split; [|done]. exists 0, "wrong", ex_zero. done.
Qed.
Print Assumptions C74_late_refuted.
(** A generator that fails, shown after the next batch has started, is a panic. *)
Theorem C74_late_panic_refuted : exists y, reach ex_B 1 y /\ y_phase y = PPanic 1.
Proof.
  eexists. split; [unfold reach, sys0|].
  - go (step_set ex_B 1 0). go (step_build ex_B 1 0). go (step_connect ex_B 1 0).
    eapply rtc_l; [left; apply (step_send ex_B 1 0 (LGeneration 0 (EvDone ex_bad))); [done|by exists (ex_case 0)]|]. cbn -[ex_B].
    go (step_evaluated ex_B 1 0). go (step_forward ex_B 1 0). go (step_forward ex_B 1 0). go (step_joined ex_B 1 0). go (step_next ex_B 1 0). go (step_set ex_B 1 1).
    ui. ui. go (step_build ex_B 1 1). go (step_connect ex_B 1 1). eapply rtc_l; [left; apply (step_panic ex_B 1 1); [right; by left|done]|]. apply rtc_refl.
  - done.
Qed.
Print Assumptions C74_late_panic_refuted.
(** A ctrl-c before the evaluation starts does not stop it. *)
Theorem C74_early_refuted : exists y, reach ex_B 1 y /\ y_phase y = PEval 0 /\ sh_stop (y_shared y) = true /\ y_stopped y = [].
Proof.
  eexists. split; [unfold reach, sys0|].
  - go (step_set ex_B 1 0). go (step_build ex_B 1 0). eapply rtc_l; [right; by apply interrupt_ctrl_c|]. cbn -[ex_B]. go (step_connect ex_B 1 0). apply rtc_refl.
  - done.
Qed.
Print Assumptions C74_early_refuted.
(** With empty batches the search never ends by itself. *)
Theorem C74_empty_refuted : forall B y i, (forall j, B j = ∅) -> reach_alone B 0 y -> y_phase y <> PReport i.
Proof.
  intros B y i HB HA Hp. assert (Z : forall j tc d, B j !! tc = Some d -> False) by (intros j tc d Hd; rewrite HB in Hd; by apply lookup_empty_Some in Hd).
  assert (HN : numbered B 0 i) by (intros j tc _ [d Hd]; destruct (Z _ _ _ Hd)).
  destruct (C74_reason B 0 i y i HN HA ltac:(lia) ltac:(by right)) as (j & m & Hin & (tc & msg & sc & -> & _)).
  assert (HR : reach B 0 y). { unfold reach_alone in HA. apply (rtc_subrel (step B 0)); [|done]. intros a b H. by left. }
  destruct (sent_no B 0 y HR j _ Hin) as [_ Ho]. destruct Ho as [d Hd]; [done|]. exact (Z _ _ _ Hd).
Qed.
Print Assumptions C74_empty_refuted.
(** A file with a long character across the limit cannot be printed. *)
Theorem C74_printed_refuted : exists l, shown_text l = None.
Proof. exists (replicate 255 97%N ++ [233%N]). by vm_compute. Qed.
Print Assumptions C74_printed_refuted.

(** ** A search *)
Example C74_example : exists y, reach_prompt ex_B 1 y /\ y_phase y = PReport 1 /\ sh_failing (y_shared y) = Some (ex_case 1, "wrong") /\
  match y_ui y with UiDone u => rev (u_batches u) = [[TSuccess]; [TFailed "wrong"]] | _ => False end.
Proof.
  assert (P : forall y y', any_step ex_B 1 y y' -> (match y_phase y with PCheck _ => y_queue y = [] | _ => True end) -> prompt_step ex_B 1 y y').
  { intros y y' H1 H2. split; [done|]. intros i Hi _. by rewrite Hi in H2. }
  eexists. split; [unfold reach_prompt, sys0|].
  - Ltac pgo X := eapply rtc_l; [match goal with P : _ |- _ => apply P; [left; eapply X; cbn; first [reflexivity | by eauto]|cbn; done] end|]; cbn -[ex_B].
    Ltac pui := eapply rtc_l; [match goal with P : _ |- _ => apply P; [left; eapply step_ui; reflexivity|cbn; done] end|]; unfold ui_turn; cbn.
    pgo (step_set ex_B 1 0). pgo (step_build ex_B 1 0). pgo (step_connect ex_B 1 0).
    eapply rtc_l; [apply P; [left; apply (step_send ex_B 1 0 (LScore 0 f64_one "ok")); [reflexivity|exists (ex_case 0); reflexivity]|cbn; exact Logic.I]|]. cbn -[ex_B].
    pgo (step_evaluated ex_B 1 0). pgo (step_forward ex_B 1 0). pgo (step_forward ex_B 1 0). pui. pui. pgo (step_joined ex_B 1 0). pgo (step_next ex_B 1 0).
    pgo (step_set ex_B 1 1). pgo (step_build ex_B 1 1). pgo (step_connect ex_B 1 1).
    eapply rtc_l; [apply P; [left; apply (step_send ex_B 1 1 (LScore 1 ex_zero "wrong")); [reflexivity|exists (ex_case 1); reflexivity]|cbn; exact Logic.I]|]. cbn -[ex_B].
    pgo (step_forward ex_B 1 1). pgo (step_forward ex_B 1 1). pui. pui. pgo (step_evaluated ex_B 1 1). pgo (step_joined ex_B 1 1). pgo (step_break ex_B 1 1).
    eapply rtc_l; [apply P; [left; eapply step_ui_end; reflexivity|done]|]. cbn. pgo (step_report ex_B 1 1). apply rtc_refl.
  - cbn. done.
Qed.
