(** * UiStateProofs3: lemmas for property C55: generation, communication tasks, checks *)
From Verif Require Import ScoreSpec ScoreProps UiStateSpec UiStateProofs UiStateProofs2.

(** ** Generation *)
Lemma gen_fails_snoc l e : gen_fails (l ++ [e]) <-> gen_fails l \/ exists r, event_of e = XDone r /\ res_status r <> Success.
Proof.
  split.
  - intros (e' & r & Hin & He & Hr). apply in_snoc in Hin as [Hin| ->]; [left; by exists e', r|right; by exists r].
  - intros [(e' & r & Hin & He & Hr)|(r & He & Hr)]; [exists e', r|exists e, r]; rewrite in_snoc; auto.
Qed.
Lemma gen_fails_nil : ~ gen_fails [].
Proof. intros (e & r & Hin & _). by apply elem_of_nil in Hin. Qed.
Lemma gen_outcome_failed l : gen_outcome l GFailed -> gen_fails l.
Proof.
  inversion 1 as [l' Hf|l' e Hn He|l' e w Hn He E1 E2|l' e r Hn He E1 E2|]; subst; [done| |]; exfalso; destruct e; done.
Qed.
Definition gen_fold (st tc : nat) (l : list gen_event) (g : gen_state) : gen_state := fold_left (fun g m => gen_step m g) (map (gen_message st tc) l) g.
Lemma legal_gen_app l1 l2 : legal_gen (l1 ++ l2) -> legal_gen l1.
Proof. intros H k1 e k2 ->. apply (H k1 e (k2 ++ l2)). by rewrite <- app_assoc. Qed.
Definition gen_good (l : list gen_event) (g : gen_state) : Prop :=
  gen_outcome l (g_status g) /\
  (forall r, g_generation g = Some r <-> OnGenerator (XDone r) ∈ l) /\
  (forall r, g_validation g = Some r <-> OnValidator (XDone r) ∈ l) /\
  (forall r, g_solution g = Some r <-> OnOfficial (XDone r) ∈ l).
Lemma is_success_true s : is_success s = true <-> s = Success.
Proof. by destruct s. Qed.
Lemma is_success_false s : is_success s = false <-> s <> Success.
Proof. by destruct s. Qed.
Lemma gen_run st tc l g : legal_gen l -> g_status g = GPending -> g_generation g = None -> g_validation g = None -> g_solution g = None ->
  gen_good l (gen_fold st tc l g).
Proof.
  intros Hl G0 G1 G2 G3. unfold gen_fold. induction l as [|e l IH] using rev_ind.
  - simpl. unfold gen_good. rewrite G0, G1, G2, G3. split; [constructor|]. split_and!; intros r; (split; [done|]); intros H; by apply elem_of_nil in H.
  - specialize (IH (legal_gen_app _ _ Hl)). rewrite map_app, fold_left_app. simpl. set (h := fold_left _ _ g) in *. clearbody h. destruct IH as (Ho & I1 & I2 & I3).
    specialize (Hl l e [] eq_refl).
    assert (gen_fails l -> event_of e = XSkipped /\ stage e <> 0) as Hf.
    { intros (e' & r & Hin & He' & Hr). destruct (Hl e' Hin) as (L1 & L2 & L3).
      assert (ends (event_of e')) as Hends by (right; by exists r). assert (bad_end (event_of e')) as Hbad by (right; by exists r).
      destruct (lt_eq_lt_dec (stage e') (stage e)) as [[Hs|Hs]|Hs].
      - split; [|lia]. destruct (event_of e) eqn:Ee; [| |done]; exfalso; by apply L3.
      - by apply L1 in Hs.
      - apply L2 in Hs. rewrite He' in Hs. done. }
    assert (forall r, XDone r = event_of e -> (forall e', e' ∈ l -> stage e' = stage e -> event_of e' <> XDone r -> forall r', event_of e' <> XDone r')) as Hone.
    { intros r Hr e' Hin Hs _ r' He'. destruct (Hl e' Hin) as (L1 & _). apply (L1 Hs). right. by exists r'. }
    assert (forall r', XDone r' = event_of e -> forall e', e' ∈ l -> stage e' = stage e -> forall r'', event_of e' <> XDone r'') as Huniq.
    { intros r' Hr e' Hin Hs r'' He'. destruct (Hl e' Hin) as (L1 & _). apply (L1 Hs). right. by exists r''. }
    assert (forall s, s = (match event_of e with
                           | XStarted _ => gen_started (stage e)
                           | XDone r => if is_success (res_status r) then gen_ended (stage e) else GFailed
                           | XSkipped => match stage e with 0 => GSkipped | _ => skip_unless_failed (g_status h) end
                           end) -> gen_outcome (l ++ [e]) s) as Hst.
    { intros s ->. destruct (event_of e) as [w|r|] eqn:Ee.
      - apply (gen_running _ _ w); [|done]. rewrite gen_fails_snoc. intros [H|(r & H & _)]; [by apply Hf in H as [H _]|congruence].
      - destruct (is_success (res_status r)) eqn:Es.
        + apply is_success_true in Es. apply (gen_done _ _ r); [|done]. rewrite gen_fails_snoc. intros [H|(r' & H & Hr')]; [by apply Hf in H as [H _]|congruence].
        + apply is_success_false in Es. apply gen_failed. rewrite gen_fails_snoc. right. by exists r.
      - assert (forall P : Prop, (gen_fails (l ++ [e]) -> gen_fails l)) as Hfl.
        { intros _ H. apply gen_fails_snoc in H as [H|(r & H & _)]; [done|congruence]. }
        destruct (decide (g_status h = GFailed)) as [Eh|Eh].
        + rewrite Eh in Ho. apply gen_outcome_failed in Ho. destruct (Hf Ho) as [_ Hs]. destruct (stage e); [done|]. rewrite Eh. simpl. apply gen_failed. rewrite gen_fails_snoc. by left.
        + assert (~ gen_fails l) as Hnf.
          { intros H. apply Eh. inversion Ho as [l' Hx|l' e' Hn He|l' e' w Hn He E1 E2|l' e' r Hn He E1 E2|]; subst; try done. by apply gen_fails_nil in H. }
          replace (match stage e with 0 => GSkipped | _ => skip_unless_failed (g_status h) end) with GSkipped by (destruct (stage e), (g_status h); done).
          apply gen_skipped; [|done]. rewrite gen_fails_snoc. intros [H|(r & H & _)]; [done|congruence]. }
    assert (forall P : gen_event, P <> e -> (P ∈ l ++ [e] <-> P ∈ l)) as Hne. { intros P HP. rewrite in_snoc. split; [by intros [?|?]|by left]. }
    assert (forall r r', XDone r' = event_of e -> (forall x, x ∈ l -> stage x = stage e -> event_of x = XDone r -> False)) as Hno by (intros; by eapply Huniq).
    destruct e as [e|e|e]; destruct e as [w|r|]; cbn [gen_message event_status gen_step gen_apply_generation gen_apply_validation gen_apply_solution] in *; cbn [event_of stage] in *.
    all: split; [apply Hst; cbn [g_status]; done|]; cbn [g_generation g_validation g_solution].
    all: split_and!; intros r0; rewrite ?Hne by done; try (by apply I1); try (by apply I2); try (by apply I3).
    all: rewrite in_snoc; split; [intros [= ->]; by right|intros [H|[= ->]]; [|done]; exfalso; eapply (Hno r0 r); [done|exact H|done|done]].
Qed.

(** ** Communication *)
Section comm.
  Context (parse : list N -> option f64) (totext : list N -> string) (show : status -> string).
  Context (n st tc : nat) (sol : path).

  Definition comm_main (e : comm_event) : ui_message :=
    match e with OnProcess i e => MEvaluation st tc sol (event_status e) i n | OnManager e => MChecker st tc sol (event_status e) end.
  Lemma comm_run_starts l l' d : Forall is_start l -> comm_run parse totext show n st tc sol (l ++ l') d =
    ms ← comm_run parse totext show n st tc sol l' d; Some (map comm_main l ++ ms).
  Proof.
    intros H. induction H as [|e l (w & [-> |(i & ->)]) Hl IH]; simpl; [by destruct (comm_run parse totext show n st tc sol l' d)| |]; rewrite IH; simpl;
      by destruct (comm_run parse totext show n st tc sol l' d).
  Qed.
  Lemma comm_run_ends l d ms : (forall e, e ∈ l -> exists g, to_group e = Some g) -> comm_run parse totext show n st tc sol l d = Some ms ->
    exists rs, group_run parse totext show (omap to_group l) d = Some rs /\ length rs = length l /\
      ms = concat (zip_with (fun e a => comm_main e :: scored st tc sol a) l rs).
  Proof.
    revert d ms. induction l as [|e l IH]; intros d ms Hg H; simpl in H; [injection H as <-; by exists []|].
    destruct (Hg e) as [g Hge]; [by left|]. assert (omap to_group (e :: l) = g :: omap to_group l) as -> by (simpl; by rewrite Hge). cbn [group_run].
    assert (exists d' a rest, group_answer parse totext show g ≫= (fun a => sender_call a d) = Some (d', a) /\
      comm_messages parse totext show n st tc sol e d = Some (d', comm_main e :: scored st tc sol a) /\
      comm_run parse totext show n st tc sol l d' = Some rest /\ ms = (comm_main e :: scored st tc sol a) ++ rest) as (d' & a & rest & H1 & H2 & H3 & ->).
    { destruct (comm_messages parse totext show n st tc sol e d) as [[d' ms1]|] eqn:E; simpl in H; [|done].
      destruct (comm_run parse totext show n st tc sol l d') as [rest|] eqn:Er; simpl in H; [|done]. injection H as <-.
      destruct e as [i [w|r|]|[w|r|]]; try done; simpl in Hge; injection Hge as <-; simpl in E |- *.
      - destruct (sender_call (process_answer show (res_status r)) d) as [[d2 a]|] eqn:Es; simpl in E; [|done]. injection E as -> <-. exists d', a, rest. done.
      - destruct (manager_answer parse totext r) as [m|] eqn:Em; simpl in E; [|done].
        destruct (sender_call (Some m) d) as [[d2 a]|] eqn:Es; simpl in E; [|done]. injection E as -> <-. exists d', a, rest. done. }
    destruct (IH d' rest) as (rs & Hrs & Hlen & ->); [intros e' He'; apply Hg; by right|done|].
    destruct (group_answer parse totext show g) as [ga|]; cbn [mbind option_bind] in H1 |- *; [|done]. rewrite H1. cbn [mbind option_bind]. rewrite Hrs. cbn [mbind option_bind]. exists (a :: rs). simpl. auto.
  Qed.
  (** No score until the last answer *)
  Lemma concat_last l a : l <> [] -> concat (zip_with (fun e a => comm_main e :: scored st tc sol a) l (replicate (length l - 1) None ++ [a])) =
    map comm_main l ++ scored st tc sol a.
  Proof.
    induction l as [|e l IH]; intros Hl; [done|]. destruct l as [|e' l].
    - simpl. by rewrite app_nil_r.
    - simpl length in *. replace (S (S (length l)) - 1) with (S (length l)) by lia. replace (S (length l) - 1) with (length l) in IH by lia.
      specialize (IH ltac:(done)). remember (e' :: l) as k. simpl. by rewrite IH.
  Qed.
  (** The results of the processes that are done *)
  Definition set_all (l : list comm_event) (rs : list (option exec_result)) : list (option exec_result) :=
    fold_left (fun rs e => match e with OnProcess i (XDone r) => <[i := Some r]> rs | _ => rs end) l rs.
  Definition last_status (l : list comm_event) (s : eval_status) : eval_status :=
    fold_left (fun s e => match e with OnProcess i (XDone r) => done_status (res_status r) | _ => s end) l s.
  Definition last_manager (l : list comm_event) (m : option exec_result) : option exec_result :=
    fold_left (fun s e => match e with OnManager (XDone r) => Some r | _ => s end) l m.
  Lemma tc_run_ends l x : (forall e, e ∈ l -> exists g, to_group e = Some g) -> (forall i r, OnProcess i (XDone r) ∈ l -> i < n) -> length (t_results x) = n ->
    tc_run (map comm_main l) x = Some (TcState (t_score x) (last_status l (t_status x)) (set_all l (t_results x)) (last_manager l (t_checker x))).
  Proof.
    revert x. induction l as [|e l IH]; intros x Hg Hi Hn; simpl; [by destruct x|].
    destruct (Hg e) as [g Hge]; [by left|]. destruct e as [i [w|r|]|[w|r|]]; try done.
    - simpl. unfold tc_apply_evaluation. rewrite (decide_True (P := length (t_results x) = n)) by done. simpl.
      rewrite decide_True by (rewrite Hn; apply (Hi i r); by left). simpl. rewrite IH; [done| | |simpl; by rewrite insert_length].
      + intros e' He'. apply Hg. by right.
      + intros i' r' H'. apply (Hi i' r'). by right.
    - simpl. rewrite IH; [done| | |done].
      + intros e' He'. apply Hg. by right.
      + intros i' r' H'. apply (Hi i' r'). by right.
  Qed.
  Lemma tc_run_starts l x : Forall is_start l -> length (t_results x) = n -> has_completed (t_status x) = false ->
    exists s, has_completed s = false /\ tc_run (map comm_main l) x = Some (TcState (t_score x) s (t_results x) (t_checker x)).
  Proof.
    intros H. revert x. induction H as [|e l (w & [-> |(i & ->)]) Hl IH]; intros x Hn Hc; simpl.
    - exists (t_status x). split; [done|]. by destruct x.
    - edestruct (IH (TcState (t_score x) EChecking (t_results x) (t_checker x))) as (s & Hs & Hr); [done|done|]. exists s. split; [done|]. exact Hr.
    - unfold tc_apply_evaluation. rewrite decide_True by done. cbn [mbind option_bind].
      edestruct (IH (TcState (t_score x) ESolving (t_results x) (t_checker x))) as (s & Hs & Hr); [done|done|]. exists s. split; [done|]. exact Hr.
  Qed.
  Lemma tc_run_pending l x : length (t_results x) = n \/ l <> [] -> tc_run (map (fun i => MEvaluation st tc sol UPending i n) l) x =
    Some (TcState (t_score x) (t_status x) (if decide (length (t_results x) = n) then t_results x else replicate n None) (t_checker x)).
  Proof.
    revert x. induction l as [|i l IH]; intros x H; simpl.
    - destruct H as [H|]; [|done]. rewrite decide_True by done. by destruct x.
    - rewrite IH; [|left; simpl; case_decide; [done|by rewrite replicate_length]]. simpl. f_equal. f_equal.
      destruct (decide (length (t_results x) = n)) as [H1|H1]; [by rewrite decide_True|]. rewrite replicate_length. by rewrite decide_True.
  Qed.
  Lemma set_all_lookup l rs i : (forall j, (forall r r', OnProcess j (XDone r) ∈ l -> OnProcess j (XDone r') ∈ l -> r = r')) -> i < length rs ->
    (forall r, OnProcess i (XDone r) ∈ l -> set_all l rs !! i = Some (Some r)) /\ ((forall r, OnProcess i (XDone r) ∉ l) -> set_all l rs !! i = rs !! i).
  Proof.
    revert rs. induction l as [|e l IH] using rev_ind; intros rs Hu Hi.
    - split; [|done]. intros r H. by apply elem_of_nil in H.
    - destruct (IH rs) as [IH1 IH2]; [intros j r r' H H'; apply (Hu j); rewrite in_snoc; by left|done|].
      unfold set_all in *. rewrite fold_left_app. simpl. set (k := fold_left _ l rs) in *.
      assert (length k = length rs) as Hk. { unfold k. clear. revert rs. induction l as [|e l IH]; intros rs; simpl; [done|]. rewrite IH. destruct e as [i [w|r|]|?]; try done. by rewrite insert_length. }
      destruct e as [j [w|r|]|e].
      + split; [intros r' H; apply in_snoc in H as [H|?]; [by apply IH1|done]|]. intros H. apply IH2. intros r' H'. apply (H r'). rewrite in_snoc. by left.
      + destruct (decide (j = i)) as [->|Hne].
        * split.
          -- intros r' H. assert (r' = r) as -> by (eapply (Hu i); [done|rewrite in_snoc; by right]). apply list_lookup_insert. lia.
          -- intros H. exfalso. apply (H r). rewrite in_snoc. by right.
        * rewrite list_lookup_insert_ne by done. split; [intros r' H; apply in_snoc in H as [H|[= ? ?]]; [by apply IH1|congruence]|].
          intros H. apply IH2. intros r' H'. apply (H r'). rewrite in_snoc. by left.
      + split; [intros r' H; apply in_snoc in H as [H|?]; [by apply IH1|done]|]. intros H. apply IH2. intros r' H'. apply (H r'). rewrite in_snoc. by left.
      + split; [intros r' H; apply in_snoc in H as [H|?]; [by apply IH1|done]|]. intros H. apply IH2. intros r' H'. apply (H r'). rewrite in_snoc. by left.
  Qed.
  Lemma set_all_length l rs : length (set_all l rs) = length rs.
  Proof. unfold set_all. revert rs. induction l as [|e l IH]; intros rs; simpl; [done|]. rewrite IH. destruct e as [i [w|r|]|?]; try done. by rewrite insert_length. Qed.
  Lemma last_process_snoc l e r : last_process (l ++ [e]) r <->
    (exists i, e = OnProcess i (XDone r)) \/ ((forall i r', e <> OnProcess i (XDone r')) /\ last_process l r).
  Proof.
    split.
    - intros (l1 & i & l2 & H & Hn). destruct l2 as [|x l2 _] using rev_ind.
      + apply app_inj_tail in H as [-> ->]. left. by exists i.
      + change (OnProcess i (XDone r) :: l2 ++ [x]) with ((OnProcess i (XDone r) :: l2) ++ [x]) in H. rewrite app_assoc in H. apply app_inj_tail in H as [-> ->].
        right. split; [intros j r' ->; apply (Hn j r'); rewrite in_snoc; by right|]. exists l1, i, l2. split; [done|]. intros j r' H. apply (Hn j r'). rewrite in_snoc. by left.
    - intros [(i & ->)|(Hn & l1 & i & l2 & -> & Hl)].
      + exists l, i, []. split; [done|]. intros j r' H. by apply elem_of_nil in H.
      + exists l1, i, (l2 ++ [e]). split; [by rewrite <- app_assoc|]. intros j r' H. apply in_snoc in H as [H|H]; [by eapply Hl|]. by eapply Hn.
  Qed.
  Lemma last_status_spec l s : (exists r, last_process l r /\ last_status l s = done_status (res_status r)) \/
    ((forall r, ~ last_process l r) /\ last_status l s = s).
  Proof.
    induction l as [|e l IH] using rev_ind.
    - right. split; [|done]. intros r (l1 & i & l2 & H & _). by destruct l1.
    - unfold last_status in *. rewrite fold_left_app. simpl. destruct e as [i [w|r|]|e].
      2: { left. exists r. split; [|done]. apply last_process_snoc. left. by exists i. }
      all: destruct IH as [(r0 & Hr & Hs)|(Hr & Hs)]; [left; exists r0; split; [|done]; apply last_process_snoc; by right|right; split; [|done]].
      all: intros r' H; apply last_process_snoc in H as [(j & ?)|(_ & H)]; [done|]; by apply (Hr r').
  Qed.
  Lemma last_process_unique l r r' : last_process l r -> last_process l r' -> r = r'.
  Proof.
    induction l as [|e l IH] using rev_ind; [intros (l1 & i & l2 & H & _); by destruct l1|].
    rewrite !last_process_snoc. intros [(i & ->)|[H1 H]] [(j & H')|[H2 H']].
    - by injection H' as -> ->.
    - by destruct (H2 i r).
    - by destruct (H1 j r').
    - by apply IH.
  Qed.
  Lemma last_manager_spec l r : (forall r', OnManager (XDone r') ∈ l -> r' = r) -> OnManager (XDone r) ∈ l -> last_manager l None = Some r.
  Proof.
    induction l as [|e l IH] using rev_ind; intros Hu Hin; [by apply elem_of_nil in Hin|]. unfold last_manager in *. rewrite fold_left_app. simpl.
    assert (forall r', OnManager (XDone r') ∈ l -> r' = r) as Hu' by (intros r' H; apply Hu; rewrite in_snoc; by left).
    destruct e as [i e|[w|r'|]].
    2: apply in_snoc in Hin as [Hin|?]; [by apply IH|done].
    - apply in_snoc in Hin as [Hin|?]; [by apply IH|done].
    - f_equal. apply Hu. rewrite in_snoc. by right.
    - apply in_snoc in Hin as [Hin|?]; [by apply IH|done].
  Qed.
End comm.
