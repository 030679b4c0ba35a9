(** * TerryUiProofs: lemmas for property C71 *)
From Verif Require Import TerryUiSpec UiStateProofs UiStateProofs2 UiStateProofs3.

(** ** What the messages do to a solution *)
Definition t_step (m : t_message) (x : t_state) : t_state :=
  match m with
  | TMGeneration _ seed s => set_seed seed (process_step s keep_generator TGenerating TGenerated "Generator" x)
  | TMValidation _ s => process_step s keep_validator TValidating TValidated "Validator" x
  | TMSolution _ s => process_step s keep_solution TSolving TSolved "Solution" x
  | TMChecker _ s => process_step s keep_checker TChecking TDone "Checker" x
  | TMOutcome _ o => set_outcome o x
  | _ => x
  end.
Definition t_fold (ms : list t_message) (x : t_state) : t_state := fold_left (fun x m => t_step m x) ms x.
Lemma on_solution_some sol f u u' : on_solution sol f u = Some u' ->
  exists x, tu_solutions u !! sol = Some x /\ tu_solutions u' = <[sol := f x]> (tu_solutions u).
Proof. unfold on_solution. destruct (tu_solutions u !! sol) as [x|] eqn:E; simpl; [|done]. intros [= <-]. by exists x. Qed.
Lemma t_apply_sol sols m u u' sol : t_message_ok sols m -> t_apply m u = Some u' ->
  tu_solutions u' !! sol = (if t_about sol m then t_step m <$> tu_solutions u !! sol else tu_solutions u !! sol).
Proof.
  intros Hok H.
  assert (Hg : forall p f, on_solution p f u = Some u' -> tu_solutions u' !! sol = if bool_decide (p = sol) then f <$> tu_solutions u !! sol else tu_solutions u !! sol).
  { intros p f Hp. apply on_solution_some in Hp as (x & Hx & ->). case_bool_decide as E; [subst; by rewrite lookup_insert, Hx|by rewrite lookup_insert_ne]. }
  destruct m; cbn [t_apply t_about t_step t_message_ok] in *; try done; try (by injection H as <-); by apply Hg in H.
Qed.
Lemma t_run_sol sols ms u u' sol : Forall (t_message_ok sols) ms -> t_run ms u = Some u' ->
  tu_solutions u' !! sol = t_fold (List.filter (t_about sol) ms) <$> tu_solutions u !! sol.
Proof.
  intros Hok. revert u. induction Hok as [|m ms Hm Hok IH]; intros u H; cbn [t_run] in H.
  - injection H as <-. cbn. by destruct (tu_solutions u !! sol).
  - destruct (t_apply m u) as [u1|] eqn:E; cbn in H; [|done]. rewrite (IH u1 H), (t_apply_sol sols m u u1 sol Hm E). cbn [List.filter].
    destruct (t_about sol m); [|done]. by destruct (tu_solutions u !! sol).
Qed.
Lemma new_solutions l sol m : (foldl (fun m p => <[p := new_t_state]> m) m l : gmap path t_state) !! sol =
  if decide (sol ∈ l) then Some new_t_state else m !! sol.
Proof.
  revert m. induction l as [|p l IH]; intros m; cbn [foldl].
  - by rewrite decide_False by apply not_elem_of_nil.
  - rewrite IH. destruct (decide (sol ∈ l)) as [H|H].
    + by rewrite decide_True by (by right).
    + destruct (decide (sol = p)) as [->|Hne].
      * rewrite lookup_insert. by rewrite decide_True by (by left).
      * rewrite lookup_insert_ne by done. rewrite decide_False; [done|]. by intros [?|?]%elem_of_cons.
Qed.
Lemma t_run_ok sols ms u : Forall (t_message_ok sols) ms -> (forall p, p ∈ sols -> is_Some (tu_solutions u !! p)) -> is_Some (t_run ms u).
Proof.
  intros Hok. revert u. induction Hok as [|m ms Hm Hok IH]; intros u Hu; cbn [t_run]; [done|].
  assert (exists u', t_apply m u = Some u') as [u' E].
  { assert (Hg : forall p f, p ∈ sols -> exists u', on_solution p f u = Some u').
    { intros p f Hp. unfold on_solution. destruct (Hu p Hp) as [x ->]. by eexists. }
    destruct m; cbn [t_apply t_message_ok] in *; eauto; done. }
  rewrite E. cbn. apply IH. intros p Hp. rewrite (t_apply_sol sols m u u' p Hm E). destruct (Hu p Hp) as [x ->]. by destruct (t_about p m).
Qed.
Lemma session_run sols ms u : t_run (session sols ms) new_t_ui = Some u ->
  exists u0, t_run ms u0 = Some u /\ (forall p, tu_solutions u0 !! p = if decide (p ∈ sols) then Some new_t_state else None).
Proof.
  intros H. eexists. split; [exact H|]. intros p. cbn [tu_solutions]. by rewrite new_solutions, lookup_empty.
Qed.

(** ** The history of a solution *)
Lemma t_legal_app l1 l2 : t_legal (l1 ++ l2) -> t_legal l1.
Proof. intros H k1 st e k2 ->. apply (H k1 st e (k2 ++ l2)). by rewrite <- app_assoc. Qed.
Lemma stage_failed_snoc l st e st' : stage_failed (l ++ [(st, e)]) st' <-> stage_failed l st' \/ (st' = st /\ exists r, e = XDone r /\ res_status r <> Success).
Proof.
  unfold stage_failed. split.
  - intros (r & Hin & Hr). apply in_snoc in Hin as [Hin|[= -> <-]]; [left; by exists r|right; split; [done|by exists r]].
  - intros [(r & Hin & Hr)|(-> & r & -> & Hr)]; exists r; rewrite in_snoc; auto.
Qed.
Lemma stage_failed_nil st : ~ stage_failed [] st.
Proof. intros (r & Hin & _). by apply elem_of_nil in Hin. Qed.
Lemma stage_no_inj st st' : stage_no st = stage_no st' -> st = st'.
Proof. by destruct st, st'. Qed.

Section log.
Context (parse : list N -> sol_outcome + string) (sol : path) (seed : N).
Lemma t_log_app l1 l2 : t_log parse sol seed (l1 ++ l2) = a ← t_log parse sol seed l1; b ← t_log parse sol seed l2; Some (a ++ b).
Proof.
  induction l1 as [|[st e] l1 IH]; cbn [t_log app].
  - cbn. by destruct (t_log parse sol seed l2).
  - destruct (t_messages parse sol seed st e) as [a|]; [|done]. cbn [mbind option_bind]. rewrite IH.
    destruct (t_log parse sol seed l1) as [b|]; [|done]. cbn [mbind option_bind]. destruct (t_log parse sol seed l2); [|done]. cbn. by rewrite app_assoc.
Qed.
Lemma t_shown_failed l m : t_shown l (TFailed m) -> exists st, stage_failed l st /\ m = stage_name st +:+ " failed".
Proof. inversion 1 as [l' st Hf| |l' st w Hn E1 E2|l' st r Hn E1 E2|]; subst; [by exists st| |]; by destruct st. Qed.
Lemma t_shown_fails l s st : t_shown l s -> stage_failed l st -> exists m, s = TFailed m.
Proof. intros [l' st0 Hx|l' st0 Hn|l' st0 w Hn|l' st0 r Hn|] H; [by eexists|by apply Hn in H..|by apply stage_failed_nil in H]. Qed.
Lemma t_fold_log l ms x : t_legal l -> t_log parse sol seed l = Some ms -> ts_status x = TPending -> ts_outcome x = None -> (forall st, result_of st x = None) ->
  t_shows parse l (t_fold ms x).
Proof.
  intros Hl Hms X0 X1 X2. revert ms Hms. induction l as [|[st e] l IH] using rev_ind; intros ms Hms.
  - cbn in Hms. injection Hms as <-. cbn. split; [rewrite X0; constructor|]. split.
    + intros st r. rewrite X2. split; [done|]. intros H. by apply elem_of_nil in H.
    + intros o. rewrite X1. split; [done|]. intros (r & out & H & _). by apply elem_of_nil in H.
  - rewrite t_log_app in Hms. destruct (t_log parse sol seed l) as [a|]; cbn [mbind option_bind] in Hms; [|done].
    cbn [t_log] in Hms. destruct (t_messages parse sol seed st e) as [b|] eqn:Eb; cbn [mbind option_bind] in Hms; [|done]. injection Hms as <-.
    specialize (IH (t_legal_app _ _ Hl) a eq_refl). unfold t_fold in *. rewrite app_nil_r, fold_left_app.
    set (h := fold_left _ a x) in *. clearbody h. destruct IH as (Ho & Ir & Iout). specialize (Hl l st e [] eq_refl).
    assert (Hf : forall st', stage_failed l st' -> e = XSkipped).
    { intros st' (r & Hin & Hr). destruct (Hl st' (XDone r) Hin) as (L1 & L2 & L3).
      destruct (lt_eq_lt_dec (stage_no st') (stage_no st)) as [[Hs|Hs]|Hs].
      - destruct e; [| |done]; exfalso; apply L3; [done|done|right; by exists r|done|done|right; by exists r].
      - apply stage_no_inj in Hs. exfalso. apply (L1 Hs). right. by exists r.
      - by apply L2 in Hs. }
    assert (Hone : forall r, e = XDone r -> forall r', (st, XDone r') ∉ l).
    { intros r -> r' Hin. destruct (Hl st (XDone r') Hin) as (L1 & _). apply L1; [done|]. right. by exists r'. }
    assert (Hst : forall s, s = (match e with
                           | XStarted _ => t_started st
                           | XDone r => if is_success (res_status r) then t_ended st else TFailed (stage_name st +:+ " failed")
                           | XSkipped => match ts_status h with TFailed m => TFailed m | _ => TSkipped end
                           end) -> t_shown (l ++ [(st, e)]) s).
    { intros s ->. destruct e as [w|r|].
      - apply shown_running. intros st'. rewrite stage_failed_snoc. intros [H|(_ & r & ? & _)]; [by apply Hf in H|done].
      - destruct (is_success (res_status r)) eqn:Es.
        + apply is_success_true in Es. apply shown_done. intros st'. rewrite stage_failed_snoc. intros [H|(_ & r' & [= <-] & ?)]; [by apply Hf in H|done].
        + apply is_success_false in Es. apply shown_failed. apply stage_failed_snoc. right. split; [done|]. by exists r.
      - destruct (ts_status h) eqn:Eh; try (apply shown_skipped; intros st'; rewrite stage_failed_snoc; intros [H|(_ & r & ? & _)]; [|done];
          by destruct (t_shown_fails _ _ _ Ho H)).
        apply t_shown_failed in Ho as (st0 & H0 & ->). apply shown_failed. apply stage_failed_snoc. by left. }
    assert (Hother : forall st' r, (st', XDone r) <> (st, e) -> (st', XDone r) ∈ l ++ [(st, e)] <-> (st', XDone r) ∈ l).
    { intros st' r Hne. rewrite in_snoc. split; [by intros [?|?]|by left]. }
    assert (Hres : forall y, (forall st', result_of st' y = if decide (st' = st) then (match e with XDone r => Some r | _ => result_of st h end) else result_of st' h) ->
      forall st' r, result_of st' y = Some r <-> (st', XDone r) ∈ l ++ [(st, e)]).
    { intros y Hy st' r. rewrite Hy. destruct (decide (st' = st)) as [->|Hne].
      - destruct e as [w|r'|].
        + rewrite Hother by done. apply Ir.
        + rewrite in_snoc. split; [intros [= ->]; by right|]. intros [H|[= ->]]; [by apply (Hone r') in H|done].
        + rewrite Hother by done. apply Ir.
      - rewrite Hother by congruence. apply Ir. }
    assert (Hout : forall y, (st <> StChecker \/ forall r, e <> XDone r) -> ts_outcome y = ts_outcome h ->
      forall o, ts_outcome y = Some o <-> exists r out, (StChecker, XDone r) ∈ l ++ [(st, e)] /\ res_stdout r = Some out /\ said parse out o).
    { intros y Hne -> o. rewrite Iout. split; intros (r & out & H & ?); exists r, out; (split; [|done]).
      - rewrite in_snoc. by left.
      - apply in_snoc in H as [H|[= <- <-]]; [done|]. by destruct Hne as [?|Hn]; [|by destruct (Hn r)]. }
    assert (Hcase : forall y, ts_status y = ts_status (match ts_status h with TFailed _ => h | _ => set_t_status TSkipped h end) ->
      ts_status y = match ts_status h with TFailed m => TFailed m | _ => TSkipped end).
    { intros y ->. destruct (ts_status h) eqn:Es; cbn; by rewrite ?Es. }
    assert (Hcase2 : forall st', result_of st' (match ts_status h with TFailed _ => h | _ => set_t_status TSkipped h end) = result_of st' h).
    { intros st'. by destruct (ts_status h), st'. }
    assert (Hcase3 : ts_outcome (match ts_status h with TFailed _ => h | _ => set_t_status TSkipped h end) = ts_outcome h) by (by destruct (ts_status h)).
    destruct st, e as [w|r|]; cbn [t_messages] in Eb.
    all: try (injection Eb as <-; cbn [stage_message event_status fold_left t_step process_step];
           split; [apply Hst; first [reflexivity|by apply Hcase]|]; split;
           [apply Hres; intros []; first [reflexivity|exact (Hcase2 StGenerator)|exact (Hcase2 StValidator)|exact (Hcase2 StSolution)|exact (Hcase2 StChecker)]|apply Hout; [first [by left|by right]|first [reflexivity|exact Hcase3]]]).
    unfold outcome_message in Eb. destruct (res_stdout r) as [out|] eqn:Er; cbn [mbind option_bind] in Eb; [|done]. injection Eb as <-.
    cbn [fold_left t_step process_step]. split; [by apply Hst|]. split; [apply Hres; by intros []|].
    intros o. cbn [ts_outcome keep_checker set_t_status set_outcome]. split.
    + intros [= <-]. exists r, out. rewrite in_snoc. split; [by right|]. split; [done|]. unfold said. by destruct (parse out).
    + intros (r' & out' & H & Ho' & Hs). apply in_snoc in H as [H|[= ->]]; [by apply (Hone r) in H|]. rewrite Er in Ho'. injection Ho' as <-.
      unfold said in Hs. destruct (parse out); by subst.
Qed.
Lemma t_fold_pending validator x : x = new_t_state -> t_fold (t_pending validator sol seed) x = set_seed seed new_t_state.
Proof. intros ->. by destruct validator. Qed.
Lemma t_log_seed l ms x : t_log parse sol seed l = Some ms -> ts_seed x = Some seed -> ts_seed (t_fold ms x) = Some seed.
Proof.
  revert ms x. induction l as [|[st e] l IH]; intros ms x H Hx; cbn [t_log] in H; [by injection H as <-|].
  destruct (t_messages parse sol seed st e) as [a|] eqn:Ea; cbn [mbind option_bind] in H; [|done].
  destruct (t_log parse sol seed l) as [b|]; cbn [mbind option_bind] in H; [|done]. injection H as <-. unfold t_fold. rewrite fold_left_app. apply (IH b _ eq_refl).
  destruct st, e as [w|r|]; cbn [t_messages] in Ea; try (injection Ea as <-; cbn; try done; by destruct (ts_status x)).
  unfold outcome_message in Ea. destruct (res_stdout r); cbn [mbind option_bind] in Ea; [|done]. by injection Ea as <-.
Qed.
End log.
