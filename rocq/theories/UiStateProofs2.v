(** * UiStateProofs2: lemmas for property C55: the testcases of batch tasks *)
From Verif Require Import UiStateSpec UiStateProofs.

Lemma legal_lookup l j e : legal l -> l !! j = Some e ->
  match e with
  | OnSolution _ => ~ ended (take j l)
  | OnChecker XSkipped => True
  | OnChecker _ => succeeded (take j l) /\ ~ checked (take j l)
  end.
Proof. intros H Hj. apply (H (take j l) e (drop (S j) l)). by rewrite take_drop_middle. Qed.
Lemma in_take {A} (l : list A) i j (x : A) : l !! i = Some x -> i < j -> x ∈ take j l.
Proof. intros H Hij. apply elem_of_list_lookup. exists i. by rewrite lookup_take. Qed.
Lemma legal_app_inv l1 l2 : legal (l1 ++ l2) -> legal l1.
Proof. intros H k1 e k2 ->. apply (H k1 e (k2 ++ l2)). by rewrite <- app_assoc. Qed.
Lemma take_in {A} (l : list A) j (x : A) : x ∈ take j l -> x ∈ l.
Proof. intros H. rewrite <- (take_drop j l). apply elem_of_app. by left. Qed.
Lemma succeeded_ended l : succeeded l -> ended l.
Proof. intros (r & Hr & _). exists (XDone r). split; [done|]. right. by eexists. Qed.
Lemma ended_mono l l' : (forall e, e ∈ l -> e ∈ l') -> ended l -> ended l'.
Proof. intros H (e & He & Hd). exists e. split; [by apply H|done]. Qed.
Lemma succeeded_mono l l' : (forall e, e ∈ l -> e ∈ l') -> succeeded l -> succeeded l'.
Proof. intros H (e & He & Hd). exists e. split; [by apply H|done]. Qed.
(** The solution ends once *)
Lemma legal_end_unique l e1 e2 : legal l -> OnSolution e1 ∈ l -> OnSolution e2 ∈ l ->
  (e1 = XSkipped \/ exists r, e1 = XDone r) -> (e2 = XSkipped \/ exists r, e2 = XDone r) -> e1 = e2.
Proof.
  intros Hl H1 H2 He1 He2. apply elem_of_list_lookup in H1 as [i Hi]. apply elem_of_list_lookup in H2 as [j Hj].
  destruct (lt_eq_lt_dec i j) as [[Hij| ->]|Hij].
  - exfalso. apply (legal_lookup _ _ _ Hl Hj). exists e1. split; [|done]. by eapply in_take.
  - congruence.
  - exfalso. apply (legal_lookup _ _ _ Hl Hi). exists e2. split; [|done]. by eapply in_take.
Qed.
(** The checker ends once *)
Lemma legal_check_unique l r1 r2 : legal l -> OnChecker (XDone r1) ∈ l -> OnChecker (XDone r2) ∈ l -> r1 = r2.
Proof.
  intros Hl H1 H2. apply elem_of_list_lookup in H1 as [i Hi]. apply elem_of_list_lookup in H2 as [j Hj].
  destruct (lt_eq_lt_dec i j) as [[Hij| ->]|Hij].
  - exfalso. apply (legal_lookup _ _ _ Hl Hj). exists r1. by eapply in_take.
  - congruence.
  - exfalso. apply (legal_lookup _ _ _ Hl Hi). exists r2. by eapply in_take.
Qed.
(** The checker runs after the solution *)
Lemma legal_checker l e : legal l -> OnChecker e ∈ l -> e <> XSkipped -> succeeded l.
Proof.
  intros Hl H He. apply elem_of_list_lookup in H as [i Hi]. pose proof (legal_lookup _ _ _ Hl Hi) as Hc.
  destruct e; [| |done]; destruct Hc as [Hc _]; eapply succeeded_mono; [|done| |done]; intros x; apply take_in.
Qed.
Lemma failure_not_success s x : failure s x -> s <> Success.
Proof. by intros []. Qed.
Lemma failure_unique s x y : failure s x -> failure s y -> x = y.
Proof. intros H H'. destruct H; inversion H'; by subst. Qed.
Lemma failure_done s : s <> Success -> failure s (done_status s).
Proof. intros H. destruct s; try constructor. done. Qed.
Lemma failure_completed s x : failure s x -> has_completed x = true.
Proof. by intros []. Qed.
Lemma score_outcome_status v msg : score_outcome v msg (score_eval_status v msg).
Proof.
  unfold score_eval_status, from_score. destruct (f64_eq v f64_zero) eqn:E1; [by constructor|].
  destruct (f64_lt (f64_abs (f64_sub v f64_one)) f64_thousandth) eqn:E2; [by constructor|by constructor].
Qed.
Lemma score_outcome_unique v msg x y : score_outcome v msg x -> score_outcome v msg y -> x = y.
Proof. intros [] []; congruence. Qed.
Lemma score_outcome_completed v msg x : score_outcome v msg x -> has_completed x = true.
Proof. by intros []. Qed.

Section batch.
  Context (parse : list N -> option f64) (totext : list N -> string) (show : status -> string) (c : checker).
  Notation outcome_of := (outcome_of parse totext c).
  Notation recorded := (recorded parse totext c).

  (** The solution succeeded and the checker has not ended *)
  Lemma outcome_succeeded l s : legal l -> succeeded l -> ~ checked l -> outcome_of l s -> s = EChecking \/ s = ESolved.
  Proof.
    intros Hl Hs Hc Ho. pose proof (succeeded_ended _ Hs) as He. destruct Hs as (r0 & Hr0 & Hr0').
    destruct Ho as [H|r s H Hf|r v msg s H Ha Hv|w H Hn|Hs Hw Hn|w H Hn|Hw Hn]; try (by left); try (by right); try done.
    - exfalso. assert (XSkipped = XDone r0); [|done]. eapply legal_end_unique; [exact Hl|done|done|by left|right; by eexists].
    - exfalso. assert (XDone r = XDone r0) as E. { eapply legal_end_unique; [exact Hl|done|done| |]; right; by eexists. }
      injection E as ->. by apply failure_not_success in Hf.
    - exfalso. apply Hc. by exists r.
  Qed.
  Lemma legal_last l e : legal (l ++ [e]) ->
    match e with
    | OnSolution _ => ~ ended l
    | OnChecker XSkipped => True
    | OnChecker _ => succeeded l /\ ~ checked l
    end.
  Proof. intros H. by apply (H l e []). Qed.
  Lemma in_snoc {A} (l : list A) (x y : A) : x ∈ l ++ [y] <-> x ∈ l \/ x = y.
  Proof. by rewrite elem_of_app, elem_of_list_singleton. Qed.
  Lemma ended_snoc l e : ended (l ++ [e]) <-> ended l \/ exists x, e = OnSolution x /\ (x = XSkipped \/ exists r, x = XDone r).
  Proof.
    split.
    - intros (x & Hx & Hd). apply in_snoc in Hx as [Hx|Hx]; [left; by exists x|right; by exists x].
    - intros [(x & Hx & Hd)|(x & -> & Hd)]; exists x; rewrite in_snoc; split; auto.
  Qed.

  (** The message of a skipped checker *)
  Lemma outcome_skip_checker l s : outcome_of l s -> outcome_of (l ++ [OnChecker XSkipped]) s.
  Proof.
    assert (forall e, e <> OnChecker XSkipped -> (e ∈ l ++ [OnChecker XSkipped] <-> e ∈ l)) as Hin.
    { intros e He. rewrite in_snoc. split; [by intros [?|?]|by left]. }
    assert (ended (l ++ [OnChecker XSkipped]) <-> ended l) as Hen.
    { rewrite ended_snoc. split; [|by left]. intros [?|(x & Hx & _)]; done. }
    intros [H|r s' H Hf|r v msg s' H Ha Hv|w H Hn|Hs Hw Hn|w H Hn|Hw Hn].
    - apply of_skipped. by apply Hin.
    - eapply of_failed; [by apply Hin|done].
    - eapply of_score; [by apply Hin|done|done].
    - eapply of_checking; [by apply Hin|]. intros r Hr. apply Hn. by apply Hin.
    - apply of_solved.
      + eapply succeeded_mono; [|done]. intros e He. rewrite in_snoc. by left.
      + intros w. rewrite Hin by done. apply Hw.
      + intros r Hr. apply Hn. by apply Hin.
    - eapply of_solving; [by apply Hin|by rewrite Hen].
    - apply of_pending; [|by rewrite Hen]. intros w. rewrite Hin by done. apply Hw.
  Qed.

  Definition good (l : list tc_event) (x : tc_state) : Prop := outcome_of l (t_status x) /\ recorded l x.
  Lemma not_ended_nothing l : legal l -> ~ ended l ->
    (forall r, OnSolution (XDone r) ∉ l) /\ (forall e, OnChecker e ∈ l -> e = XSkipped).
  Proof.
    intros Hl Hn. split.
    - intros r Hr. apply Hn. exists (XDone r). split; [done|]. right. by eexists.
    - intros e He. destruct e; [| |done]; exfalso; apply Hn, succeeded_ended; by eapply legal_checker.
  Qed.
  Lemma batch_step st tc sol l e ms x x' : legal (l ++ [e]) -> good l x -> batch_messages parse totext show c st tc sol e = Some ms ->
    tc_run ms x = Some x' -> good (l ++ [e]) x'.
  Proof.
    intros Hl [Ho Hr] Hm Hx. pose proof (legal_last _ _ Hl) as Hlast. pose proof (legal_app_inv _ _ Hl) as Hl0.
    destruct Hr as (R1 & R2 & R3 & R4). destruct e as [[w|r|]|[w|r|]]; cbn [batch_messages event_status] in Hm.
    - (* the solution starts *)
      injection Hm as <-. simpl in Hx. destruct (not_ended_nothing _ Hl0 Hlast) as [Hnd Hnc]. assert (t_results x = [None]) as Hres by by apply R2.
      rewrite Hres in Hx. simpl in Hx. injection Hx as <-. split; simpl.
      + apply (of_solving _ _ _ _ w); [rewrite in_snoc; by right|]. rewrite ended_snoc. intros [?|(y & [= <-] & [?|[r ?]])]; done.
      + repeat split; simpl.
        * intros r Hr. exfalso. apply in_snoc in Hr as [Hr|Hr]; [by apply (Hnd r)|done].
        * intros Hr. apply in_snoc. left. by apply R3.
        * intros Hr. apply R3. by apply in_snoc in Hr as [?|?].
        * intros Hv. apply R4 in Hv as [(r & Hr & ?)|(r & m & Hr & ?)]; [left; exists r|right; exists r, m]; by rewrite in_snoc; auto.
        * intros [(r & Hr & ?)|(r & m & Hr & ?)]; apply in_snoc in Hr as [Hr|Hr]; try done; apply R4; [left; by exists r|right; by exists r, m].
    - (* the solution is done *)
      injection Hm as <-. destruct (not_ended_nothing _ Hl0 Hlast) as [Hnd Hnc]. assert (t_results x = [None]) as Hres by by apply R2.
      assert (t_checker x = None) as Hchk. { destruct (t_checker x) as [r'|] eqn:E; [|done]. by specialize (Hnc _ (proj1 (R3 r') eq_refl)). }
      assert (t_score x = None) as Hsc.
      { destruct (t_score x) as [v|] eqn:E; [|done]. destruct (proj1 (R4 v) eq_refl) as [(r' & Hr' & _)|(r' & m & Hr' & _)]; [by apply Hnd in Hr'|by apply Hnc in Hr']. }
      assert (forall r', OnSolution (XDone r') ∈ l ++ [OnSolution (XDone r)] <-> r' = r) as Hd.
      { intros r'. rewrite in_snoc. split; [intros [H|[= H]]; [by apply Hnd in H|done]|intros ->; by right]. }
      assert (forall e, e <> XSkipped -> OnChecker e ∉ l ++ [OnSolution (XDone r)]) as Hc.
      { intros e He Hin. apply in_snoc in Hin as [Hin|Hin]; [by apply Hnc in Hin|done]. }
      cbn [tc_run tc_step] in Hx. unfold tc_apply_evaluation in Hx. rewrite Hres in Hx. simpl in Hx. unfold process_answer in Hx.
      destruct (decide (res_status r = Success)) as [Es|Es].
      + rewrite Es in Hx. simpl in Hx. injection Hx as <-. split; simpl.
        * apply of_solved; [exists r; split; [by apply Hd|done]| |].
          -- intros w. by apply Hc.
          -- intros r' Hr'. exfalso. by eapply Hc; [|exact Hr'].
        * rewrite Hchk, Hsc. split_and!; simpl.
          -- intros r' Hr'. apply Hd in Hr'. by subst.
          -- intros Hn. exfalso. apply (Hn r). by apply Hd.
          -- intros r'. split; [done|]. intros Hr'. exfalso. by eapply Hc; [|exact Hr'].
          -- intros v. split; [done|]. intros [(r' & Hr' & Hn & _)|(r' & m & Hr' & _)]; exfalso.
             ++ apply Hd in Hr'. by subst.
             ++ by eapply Hc; [|exact Hr'].
      + assert (is_success (res_status r) = false) as Hf by (by destruct (res_status r)). rewrite Hf in Hx.
        pose proof (failure_done _ Es) as Hfd. cbn [scored tc_run tc_step mbind option_bind] in Hx. unfold tc_apply_score in Hx. cbn [t_status t_score t_results t_checker] in Hx.
        rewrite (failure_completed _ _ Hfd) in Hx. injection Hx as <-. split; simpl.
        * eapply of_failed; [by apply Hd|done].
        * rewrite Hchk. split_and!; simpl.
          -- intros r' Hr'. apply Hd in Hr'. by subst.
          -- intros Hn. exfalso. apply (Hn r). by apply Hd.
          -- intros r'. split; [done|]. intros Hr'. exfalso. by eapply Hc; [|exact Hr'].
          -- intros v. split.
             ++ intros [= <-]. left. exists r. split; [by apply Hd|done].
             ++ intros [(r' & Hr' & Hn & ->)|(r' & m & Hr' & _)]; [done|]. exfalso. by eapply Hc; [|exact Hr'].
    - (* the solution is skipped *)
      injection Hm as <-. simpl in Hx. destruct (not_ended_nothing _ Hl0 Hlast) as [Hnd Hnc]. assert (t_results x = [None]) as Hres by by apply R2.
      rewrite Hres in Hx. simpl in Hx. injection Hx as <-. split; simpl.
      + apply of_skipped. rewrite in_snoc. by right.
      + repeat split; simpl.
        * intros r Hr. exfalso. apply in_snoc in Hr as [Hr|Hr]; [by apply (Hnd r)|done].
        * intros Hr. apply in_snoc. left. by apply R3.
        * intros Hr. apply R3. by apply in_snoc in Hr as [?|?].
        * intros Hv. apply R4 in Hv as [(r & Hr & ?)|(r & m & Hr & ?)]; [left; exists r|right; exists r, m]; by rewrite in_snoc; auto.
        * intros [(r & Hr & ?)|(r & m & Hr & ?)]; apply in_snoc in Hr as [Hr|Hr]; try done; apply R4; [left; by exists r|right; by exists r, m].
    - (* the checker starts *)
      injection Hm as <-. simpl in Hx. injection Hx as <-. destruct Hlast as [Hs Hc]. split; simpl.
      + apply (of_checking _ _ _ _ w); [rewrite in_snoc; by right|]. intros r Hr. exfalso. apply in_snoc in Hr as [Hr|Hr]; [|done]. apply Hc. by exists r.
      + split_and!; simpl.
        * intros r Hr. apply R1. by apply in_snoc in Hr as [?|?].
        * intros Hn. apply R2. intros r Hr. apply (Hn r). apply in_snoc. by left.
        * intros r. rewrite R3, in_snoc. split; [by left|]. by intros [?|?].
        * intros v. rewrite R4. split; (intros [(r & Hr & ?)|(r & m & Hr & ?)]; [left; exists r|right; exists r, m]; (split; [|done]); [| ]).
          1,2: apply in_snoc; by left.
          1,2: by apply in_snoc in Hr as [?|?].
    - (* the checker is done *)
      destruct (checker_answer parse totext c r) as [a|] eqn:Ea; simpl in Hm; [|done]. injection Hm as <-. destruct Hlast as [Hs Hc].
      pose proof (outcome_succeeded _ _ Hl0 Hs Hc Ho) as Hst.
      assert (t_score x = None) as Hsc.
      { destruct (t_score x) as [v|] eqn:E; [|done]. exfalso. destruct (proj1 (R4 v) eq_refl) as [(r' & Hr' & Hf & _)|(r' & m & Hr' & _)].
        - destruct Hs as (r0 & Hr0 & Hs0). assert (XDone r' = XDone r0) as E'; [|by injection E' as ->]. eapply legal_end_unique; [exact Hl0|done|done| |]; right; by eexists.
        - apply Hc. by exists r'. }
      assert (forall r', OnChecker (XDone r') ∈ l ++ [OnChecker (XDone r)] <-> r' = r) as Hd.
      { intros r'. rewrite in_snoc. split; [intros [H|[= H]]; [|done]; exfalso; apply Hc; by exists r'|intros ->; by right]. }
      assert (forall y, t_results y = t_results x -> t_checker y = Some r -> t_score y = (a ≫= fun p => Some p.1) -> recorded (l ++ [OnChecker (XDone r)]) y) as Hrec.
      { intros y Y1 Y2 Y3. unfold UiStateSpec.recorded. rewrite Y1, Y2, Y3. split_and!.
        - intros r' Hr'. apply R1. by apply in_snoc in Hr' as [?|?].
        - intros Hn. apply R2. intros r' Hr'. apply (Hn r'). apply in_snoc. by left.
        - intros r'. rewrite Hd. split; [by intros [= ->]|by intros ->].
        - intros v. split.
          + destruct a as [[v' m]|]; simpl; [|done]. intros [= <-]. right. exists r, m. split; [by apply Hd|done].
          + intros [(r' & Hr' & Hf & _)|(r' & m & Hr' & Ha)].
            * exfalso. apply in_snoc in Hr' as [Hr'|?]; [|done]. destruct Hs as (r0 & Hr0 & Hs0). assert (XDone r' = XDone r0) as E'; [|by injection E' as ->]. eapply legal_end_unique; [exact Hl0|done|done| |]; right; by eexists.
            * apply Hd in Hr' as ->. rewrite Ea in Ha. injection Ha as ->. done. }
      destruct a as [[v msg]|]; simpl in Hx; injection Hx as <-.
      + split; [|by apply Hrec]. simpl.
        replace (has_completed (t_status x)) with false by (by destruct Hst as [-> | ->]).
        eapply of_score; [by apply Hd|done|]. apply score_outcome_status.
      + split; [|by apply Hrec]. simpl. destruct Ho as [H|r' s' H Hf|r' v msg s' H Ha Hv|w H Hn|Hs' Hw Hn|w H Hn|Hw Hn].
        * by destruct Hst.
        * exfalso. destruct Hst as [-> | ->]; by apply failure_completed in Hf.
        * exfalso. destruct Hst as [-> | ->]; by apply score_outcome_completed in Hv.
        * eapply of_checking; [rewrite in_snoc; by left|]. intros r' Hr'. by apply Hd in Hr' as ->.
        * apply of_solved.
          -- eapply succeeded_mono; [|done]. intros e He. rewrite in_snoc. by left.
          -- intros w. rewrite in_snoc. intros [H|?]; [by apply (Hw w)|done].
          -- intros r' Hr'. by apply Hd in Hr' as ->.
        * by destruct Hst.
        * by destruct Hst.
    - (* the checker is skipped *)
      injection Hm as <-. simpl in Hx. injection Hx as <-. split; [by apply outcome_skip_checker|]. split_and!.
      + intros r Hr. apply R1. by apply in_snoc in Hr as [?|?].
      + intros Hn. apply R2. intros r Hr. apply (Hn r). apply in_snoc. by left.
      + intros r. rewrite R3, in_snoc. split; [by left|]. by intros [?|?].
      + intros v. rewrite R4. split; (intros [(r & Hr & ?)|(r & m & Hr & ?)]; [left; exists r|right; exists r, m]; (split; [|done]); [| ]).
        1,2: apply in_snoc; by left.
        1,2: by apply in_snoc in Hr as [?|?].
  Qed.
  Lemma mapM_snoc {A B} (f : A -> option B) l x : mapM f (l ++ [x]) = ys ← mapM f l; y ← f x; Some (ys ++ [y]).
  Proof.
    induction l as [|a l IH]; simpl; [by destruct (f x)|]. destruct (f a); simpl; [|done]. rewrite IH. destruct (mapM f l); simpl; [|done]. by destruct (f x).
  Qed.
  Lemma batch_run st tc sol l log x : legal l -> batch_log parse totext show c st tc sol l = Some log -> tc_run log new_tc_state = Some x -> good l x.
  Proof.
    unfold batch_log. revert log x. induction l as [|e l IH] using rev_ind; intros log x Hl Hlog Hx.
    - simpl in Hlog. injection Hlog as <-. simpl in Hx. injection Hx as <-. split; simpl.
      + apply of_pending; [intros w H; by apply elem_of_nil in H|]. intros (e & H & _). by apply elem_of_nil in H.
      + split_and!; simpl; [intros r H; by apply elem_of_nil in H|done|intros r; split; [done|]; intros H; by apply elem_of_nil in H|].
        intros v. split; [done|]. intros [(r & H & _)|(r & m & H & _)]; by apply elem_of_nil in H.
    - rewrite mapM_snoc in Hlog. destruct (mapM _ l) as [mss|] eqn:Em; simpl in Hlog; [|done].
      destruct (batch_messages parse totext show c st tc sol e) as [ms|] eqn:Ee; cbn [mbind option_bind] in Hlog; [|done]. injection Hlog as <-.
      rewrite concat_app in Hx. change (concat [ms]) with (ms ++ []) in Hx. rewrite app_nil_r in Hx.
      change (MEvaluation st tc sol UPending 0 1 :: MChecker st tc sol UPending :: concat mss ++ ms) with ((batch_pending st tc sol ++ concat mss) ++ ms) in Hx.
      rewrite tc_run_app in Hx. destruct (tc_run (batch_pending st tc sol ++ concat mss) new_tc_state) as [y|] eqn:Ey; cbn [mbind option_bind] in Hx; [|done].
      eapply batch_step; [exact Hl| |exact Ee|exact Hx]. eapply IH; [by eapply legal_app_inv|done|exact Ey].
  Qed.
  (** What is to be shown is determined *)
  Lemma outcome_unique l s1 s2 : legal l -> outcome_of l s1 -> outcome_of l s2 -> s1 = s2.
  Proof.
    intros Hl H1 H2.
    assert (forall e e', OnSolution e ∈ l -> OnSolution e' ∈ l -> (e = XSkipped \/ exists r, e = XDone r) -> (e' = XSkipped \/ exists r, e' = XDone r) -> e = e') as Hend by (intros; by eapply legal_end_unique).
    assert (forall r1 r2, OnChecker (XDone r1) ∈ l -> OnChecker (XDone r2) ∈ l -> r1 = r2) as Hchk by (intros; by eapply legal_check_unique).
    assert (forall e, OnChecker e ∈ l -> e <> XSkipped -> succeeded l) as Hsuc by (intros; by eapply legal_checker).
    assert (forall r s, OnSolution (XDone r) ∈ l -> failure (res_status r) s -> succeeded l -> False) as Hfs.
    { intros r s Hr Hf (r0 & Hr0 & Hs0). assert (XDone r = XDone r0) as [= ->]. { apply Hend; [done|done|right; by eexists|right; by eexists]. } by apply failure_not_success in Hf. }
    assert (OnSolution XSkipped ∈ l -> succeeded l -> False) as Hss.
    { intros Hr (r0 & Hr0 & Hs0). assert (XSkipped = XDone r0); [|done]. apply Hend; [done|done|by left|right; by eexists]. }
    assert (forall r s, OnSolution (XDone r) ∈ l -> failure (res_status r) s -> OnSolution XSkipped ∈ l -> False) as Hfk.
    { intros r s Hr Hf Hk. assert (XSkipped = XDone r); [|done]. apply Hend; [done|done|by left|right; by eexists]. }
    assert (OnSolution XSkipped ∈ l -> ended l) as He1. { intros H. exists XSkipped. split; [done|by left]. }
    assert (forall r, OnSolution (XDone r) ∈ l -> ended l) as He2. { intros r H. exists (XDone r). split; [done|right; by eexists]. }
    pose proof (succeeded_ended l) as He3.
    destruct H1 as [A|r s A Hf|r v msg s A Ha Hv|w A Hn|A Hw Hn|w A Hn|A Hn]; destruct H2 as [B|r' s' B Hf'|r' v' msg' s' B Ha' Hv'|w' B Hn'|B Hw' Hn'|w' B Hn'|B Hn'].
    all: try reflexivity.
    all: try (exfalso; by eauto).
    all: try (exfalso; (assert (succeeded l) as Hsl by (eapply Hsuc; [eassumption|done])); by eauto).
    - assert (XDone r = XDone r') as [= ->]. { apply Hend; [done|done|right; by eexists|right; by eexists]. } by eapply failure_unique.
    - pose proof (Hchk _ _ A B) as ->. rewrite Ha in Ha'. injection Ha' as -> ->. by eapply score_outcome_unique.
    - exfalso. pose proof (Hn' _ A). congruence.
    - exfalso. pose proof (Hn' _ A). congruence.
    - exfalso. pose proof (Hn _ B). congruence.
    - exfalso. by apply (Hw' w).
    - exfalso. pose proof (Hn _ B). congruence.
    - exfalso. by apply (Hw w').
    - exfalso. by apply (B w).
    - exfalso. by apply (A w').
  Qed.
  (** A completed outcome stays *)
  Lemma outcome_stable l l' s : legal (l ++ l') -> outcome_of l s -> has_completed s = true -> outcome_of (l ++ l') s.
  Proof.
    intros Hl Ho Hc. assert (forall e, e ∈ l -> e ∈ l ++ l') as Hin. { intros e He. apply elem_of_app. by left. }
    destruct Ho as [A|r s A Hf|r v msg s A Ha Hv|w A Hn|A Hw Hn|w A Hn|A Hn]; try done.
    - apply of_skipped. by apply Hin.
    - eapply of_failed; [by apply Hin|done].
    - eapply of_score; [by apply Hin|done|done].
  Qed.
End batch.
