(** * TerryUiProps: property C71, what is shown of a Terry task *)
From Coq Require Import Reals Lia Lra.
From Flocq Require Import Core.Core IEEE754.BinarySingleNaN.
From Verif Require Import TerryUiSpec UiStateProofs UiStateProofs2 UiStateProofs3 TerryUiProofs.

(** C71. The interface does not panic, whatever is heard about the solutions of the list. *)
Theorem C71_no_panic : forall sols ms, Forall (t_message_ok sols) ms -> is_Some (t_run (session sols ms) new_t_ui).
Proof.
  intros sols ms H. change (is_Some (t_run ms (TUi ∅ (foldl (fun m p => <[p := new_t_state]> m) ∅ sols) None []))).
  apply (t_run_ok sols); [done|]. intros p Hp. cbn [tu_solutions]. rewrite new_solutions, decide_True by done. by eexists.
Qed.
Print Assumptions C71_no_panic.

(** The solutions that are shown are those of the list; what is shown of a solution depends only on the messages about it,
    however they are mixed with the others. *)
Theorem C71_solutions : forall sols ms u, Forall (t_message_ok sols) ms -> t_run (session sols ms) new_t_ui = Some u ->
  forall sol, is_Some (tu_solutions u !! sol) <-> sol ∈ sols.
Proof.
  intros sols ms u Hok H sol. apply session_run in H as (u0 & H & H0). rewrite (t_run_sol sols ms u0 u sol Hok H), H0.
  destruct (decide (sol ∈ sols)); split; intros Hx; try done; by destruct Hx.
Qed.
Print Assumptions C71_solutions.
Theorem C71_local : forall sols ms ms' u u' sol, Forall (t_message_ok sols) ms -> Forall (t_message_ok sols) ms' ->
  t_run (session sols ms) new_t_ui = Some u -> t_run (session sols ms') new_t_ui = Some u' ->
  List.filter (t_about sol) ms = List.filter (t_about sol) ms' -> tu_solutions u !! sol = tu_solutions u' !! sol.
Proof.
  intros sols ms ms' u u' sol Hok Hok' H H' E. apply session_run in H as (u0 & H & H0). apply session_run in H' as (u1 & H' & H1).
  by rewrite (t_run_sol sols ms u0 u sol Hok H), (t_run_sol sols ms' u1 u' sol Hok' H'), H0, H1, E.
Qed.
Print Assumptions C71_local.

(** What is shown of a solution about which [l] was heard: the stage that failed, if one did, else what was heard last; its seed;
    the results of its executions; what the checker printed. *)
Theorem C71_solution : forall parse sols ms u validator sol seed l log, Forall (t_message_ok sols) ms -> t_run (session sols ms) new_t_ui = Some u ->
  sol ∈ sols -> t_legal l -> t_log parse sol seed l = Some log -> List.filter (t_about sol) ms = t_pending validator sol seed ++ log ->
  exists x, tu_solutions u !! sol = Some x /\ t_shows parse l x /\ ts_seed x = Some seed.
Proof.
  intros parse sols ms u validator sol seed l log Hok H Hsol Hl Hlog E. apply session_run in H as (u0 & H & H0).
  rewrite (t_run_sol sols ms u0 u sol Hok H), H0, decide_True, E by done. cbn [fmap option_fmap option_map].
  eexists. split; [done|]. unfold t_fold. rewrite fold_left_app. change (fold_left _ (t_pending validator sol seed) new_t_state) with (t_fold (t_pending validator sol seed) new_t_state).
  rewrite t_fold_pending by done. change (fold_left _ log ?x) with (t_fold log x).
  destruct (t_fold_log parse sol seed l log (set_seed seed new_t_state) Hl Hlog eq_refl eq_refl) as (G1 & G2 & G3); [by intros []|].
  split; [done|]. by eapply t_log_seed.
Qed.
Print Assumptions C71_solution.

Lemma legal_two l st1 e1 st2 e2 : t_legal l -> (st1, e1) ∈ l -> (st2, e2) ∈ l -> (st1, e1) = (st2, e2) \/
  (exists l1 l2, l = l1 ++ (st2, e2) :: l2 /\ (st1, e1) ∈ l1) \/ (exists l1 l2, l = l1 ++ (st1, e1) :: l2 /\ (st2, e2) ∈ l1).
Proof.
  intros Hl H1 H2. apply elem_of_list_lookup in H1 as [i H1]. apply elem_of_list_lookup in H2 as [j H2].
  destruct (lt_eq_lt_dec i j) as [[Hs| ->]|Hs]; [|left; congruence|].
  - right. left. exists (take j l), (drop (S j) l). split; [by rewrite take_drop_middle|]. by eapply in_take.
  - right. right. exists (take i l), (drop (S i) l). split; [by rewrite take_drop_middle|]. by eapply in_take.
Qed.
Lemma legal_done_once l st r r' : t_legal l -> (st, XDone r) ∈ l -> (st, XDone r') ∈ l -> r = r'.
Proof.
  intros Hl H1 H2. destruct (legal_two l _ _ _ _ Hl H1 H2) as [?|[(l1 & l2 & -> & H)|(l1 & l2 & -> & H)]]; [congruence|exfalso..];
    destruct (Hl l1 _ _ l2 eq_refl _ _ H) as (L & _); apply L; [done|right; by eexists|done|right; by eexists].
Qed.
Lemma legal_failed_last l st r st' r' : t_legal l -> (st, XDone r) ∈ l -> res_status r <> Success -> (st', XDone r') ∈ l -> stage_no st' <= stage_no st.
Proof.
  intros Hl H1 Hr H2. destruct (decide (stage_no st < stage_no st')); [exfalso|lia].
  destruct (legal_two l _ _ _ _ Hl H1 H2) as [[= -> ->]|[(l1 & l2 & -> & H)|(l1 & l2 & -> & H)]]; [lia| |].
  - destruct (Hl l1 _ _ l2 eq_refl _ _ H) as (_ & _ & L). apply L; [done|done|]. right. by eexists.
  - destruct (Hl l1 _ _ l2 eq_refl _ _ H) as (_ & L & _). by specialize (L ltac:(done)).
Qed.
Lemma failed_once l st st' : t_legal l -> stage_failed l st -> stage_failed l st' -> st = st'.
Proof.
  intros Hl (r & H1 & Hr) (r' & H2 & Hr'). apply stage_no_inj. pose proof (legal_failed_last l _ _ _ _ Hl H1 Hr H2). pose proof (legal_failed_last l _ _ _ _ Hl H2 Hr' H1). lia.
Qed.
(** The status is determined by the history, *)
Theorem C71_status_unique : forall l s s', t_legal l -> t_shown l s -> t_shown l s' -> s = s'.
Proof.
  intros l s s' Hl H H'. destruct H as [l st Hf|l st Hn|l st w Hn|l st r Hn|]; inversion H' as [l' st' Hf'|l' st' Hn' E1 E2|l' st' w' Hn' E1 E2|l' st' r' Hn' E1 E2|E1 E2]; subst.
  all: try (by rewrite (failed_once _ _ _ Hl Hf Hf')).
  all: try (match goal with H : stage_failed ?l ?st, K : forall x, ~ stage_failed ?l x |- _ => by apply K in H end).
  all: try (match goal with H : _ ++ [_] = _ ++ [_] |- _ => apply app_inj_tail in H as [_ H]; by simplify_eq end).
  all: try (by apply stage_failed_nil in Hf'). all: try (by apply stage_failed_nil in Hf).
  all: try (match goal with H : _ ++ [_] = [] |- _ => by apply app_nil in H as [_ ?] | H : [] = _ ++ [_] |- _ => symmetry in H; by apply app_nil in H as [_ ?] end).
  done.
Qed.
Print Assumptions C71_status_unique.
(** a solution is shown as failed at a stage exactly if that stage failed, and as done exactly if the checker succeeded. *)
Theorem C71_failed : forall l s st, t_legal l -> t_shown l s -> (s = TFailed (stage_name st +:+ " failed") <-> stage_failed l st).
Proof.
  intros l s st Hl H. split.
  - intros ->. apply t_shown_failed in H as (st' & H & E). by destruct st, st'.
  - intros Hf. apply (C71_status_unique l); [done|done|by apply shown_failed].
Qed.
Theorem C71_done : forall l s, t_legal l -> t_shown l s -> (s = TDone <-> exists r, (StChecker, XDone r) ∈ l /\ res_status r = Success).
Proof.
  intros l s Hl H. split.
  - intros ->. inversion H as [|l' st' Hn' E1 E2|l' st' w' Hn' E1 E2|l' st' r' Hn' E1 E2|E1 E2]; subst; try (by destruct st').
    destruct st'; try done. exists r'. rewrite in_snoc. split; [by right|]. destruct (decide (res_status r' = Success)) as [?|Hne]; [done|].
    destruct (Hn' StChecker). exists r'. rewrite in_snoc. split; [by right|done].
  - intros (r & Hin & Hr).
    assert (Hnf : forall st, ~ stage_failed l st).
    { intros st (r' & H' & Hr'). pose proof (legal_failed_last l _ _ _ _ Hl H' Hr' Hin) as Hle. assert (st = StChecker) as -> by (by destruct st; cbn in Hle; try lia).
      by rewrite (legal_done_once l _ _ _ Hl Hin H') in Hr. }
    apply elem_of_list_split in Hin as (l1 & l2 & ->).
    assert (l2 = []) as ->.
    { destruct l2 as [|[st e] l2]; [done|]. exfalso. destruct (Hl (l1 ++ [(StChecker, XDone r)]) st e l2) with (st' := StChecker) (e' := XDone r) as (L1 & L2 & _).
      { by rewrite <- app_assoc. } { rewrite in_snoc. by right. }
      destruct st; try (by specialize (L2 ltac:(cbn; lia))). apply L1; [done|]. right. by eexists. }
    apply (C71_status_unique (l1 ++ [(StChecker, XDone r)])); [done|done|]. by apply (shown_done l1 StChecker r).
Qed.
Print Assumptions C71_failed.
Print Assumptions C71_done.

(** ** The summary *)
(** If the checker ran, what it printed is shown; else the stage that failed, if one did. *)
Theorem C71_summary : forall parse max l x, t_legal l -> t_shows parse l x ->
  (forall r out o, (StChecker, XDone r) ∈ l -> res_stdout r = Some out -> parse out = inl o ->
     exists c, summary_line max x = SumScore c (f64_floor (f64_mul (so_score o) max)) (zip_with case_mark (so_validation o) (so_feedback o))) /\
  (forall r out e, (StChecker, XDone r) ∈ l -> res_stdout r = Some out -> parse out = inr e -> summary_line max x = SumText ("Invalid checker outcome: " +:+ e)) /\
  ((forall r out, (StChecker, XDone r) ∈ l -> res_stdout r <> Some out) ->
     (forall st, stage_failed l st -> summary_line max x = SumText (stage_name st +:+ " failed")) /\
     ((forall st, ~ stage_failed l st) -> summary_line max x = SumText "Failed")).
Proof.
  intros parse max l x Hl (G1 & G2 & G3). unfold summary_line. split; [|split].
  - intros r out o Hin Hr Hp. assert (ts_outcome x = Some (inl o)) as -> by (apply G3; exists r, out; unfold said; by rewrite Hp). by eexists.
  - intros r out e Hin Hr Hp. assert (ts_outcome x = Some (inr ("Invalid checker outcome: " +:+ e))) as -> by (apply G3; exists r, out; unfold said; by rewrite Hp). done.
  - intros Hno. destruct (ts_outcome x) as [o|]; [destruct (proj1 (G3 o) eq_refl) as (r & out & Hin & Hr & _); by apply Hno in Hr|]. split.
    + intros st Hf. by rewrite (proj2 (C71_failed l _ st Hl G1) Hf).
    + intros Hn. destruct (ts_status x) eqn:Es; try done. apply t_shown_failed in G1 as (st & H & _). by apply Hn in H.
Qed.
Print Assumptions C71_summary.
(** So it does not depend on the order in which the executions were heard about: *)
Theorem C71_summary_order : forall parse max l l' x x', t_legal l -> t_legal l' -> l ≡ₚ l' -> t_shows parse l x -> t_shows parse l' x' ->
  summary_line max x = summary_line max x' /\ forall st, result_of st x = result_of st x'.
Proof.
  intros parse max l l' x x' Hl Hl' Hp (G1 & G2 & G3) (G1' & G2' & G3').
  assert (Ho : ts_outcome x = ts_outcome x').
  { assert (Hi : forall o, ts_outcome x = Some o <-> ts_outcome x' = Some o).
    { intros o. rewrite G3, G3'. split; intros (r & out & Hin & ?); exists r, out; (split; [|done]); [by rewrite <- Hp|by rewrite Hp]. }
    destruct (ts_outcome x) as [o|]; [symmetry; by apply Hi|]. destruct (ts_outcome x') as [o|]; [by apply Hi|done]. }
  split.
  - unfold summary_line. rewrite <- Ho. destruct (ts_outcome x); [done|]. f_equal.
    assert (Hst : forall st, stage_failed l st <-> stage_failed l' st).
    { intros st. split; intros (r & Hin & ?); exists r; (split; [|done]); [by rewrite <- Hp|by rewrite Hp]. }
    assert (Hm : forall m, ts_status x = TFailed m <-> ts_status x' = TFailed m).
    { intros m. split; intros E; [rewrite E in G1|rewrite E in G1'].
      - apply t_shown_failed in G1 as (st & H & ->). apply Hst in H. by apply (C71_failed l' _ st).
      - apply t_shown_failed in G1' as (st & H & ->). apply Hst in H. by apply (C71_failed l _ st). }
    destruct (ts_status x) as [| | | | | | | | |m|]; try (destruct (ts_status x') as [| | | | | | | | |m'|]; try done; by discriminate (proj2 (Hm m') eq_refl)).
    by rewrite (proj1 (Hm m) eq_refl).
  - intros st. assert (Hi : forall r, result_of st x = Some r <-> result_of st x' = Some r) by (intros r; by rewrite G2, G2', Hp).
    destruct (result_of st x) as [r|]; [symmetry; by apply Hi|]. destruct (result_of st x') as [r|]; [by apply Hi|done].
Qed.
Print Assumptions C71_summary_order.

(** The score that is printed is the integer part of the score, *)
Theorem C71_floor : forall x n, f64_floor x = Some n -> (IZR n <= SF2R radix2 x < IZR n + 1)%R.
Proof.
  intros x n. destruct x as [s|s| |s m e]; cbn [f64_floor]; try done.
  - intros [= <-]. cbn. lra.
  - intros [= <-]. cbn [SF2R]. unfold F2R, cond_Zopp. cbn [Fnum Fexp].
    set (v := if s then Z.neg m else Z.pos m). assert ((if s then (- Z.pos m)%Z else Z.pos m) = v) as -> by (by destruct s).
    destruct (0 <=? e)%Z eqn:Ee.
    + apply Z.leb_le in Ee. rewrite mult_IZR. rewrite (IZR_Zpower radix2) by done. lra.
    + apply Z.leb_gt in Ee. assert (Hp : (0 < 2 ^ (- e))%Z) by (apply Z.pow_pos_nonneg; lia).
      pose proof (Z.mul_div_le v (2 ^ (- e)) Hp) as H1. pose proof (Z.mul_succ_div_gt v (2 ^ (- e)) Hp) as H2.
      assert (He : bpow radix2 e = (/ IZR (2 ^ (- e)))%R).
      { rewrite (IZR_Zpower radix2) by lia. rewrite <- bpow_opp. f_equal. lia. }
      rewrite He. assert (HR : (0 < IZR (2 ^ (- e)))%R) by (by apply IZR_lt).
      apply IZR_le in H1. apply IZR_lt in H2. rewrite mult_IZR in H1. rewrite mult_IZR, succ_IZR in H2.
      split.
      * apply (Rmult_le_reg_r (IZR (2 ^ (- e)))); [done|]. rewrite Rmult_assoc, Rinv_l by lra. lra.
      * apply (Rmult_lt_reg_r (IZR (2 ^ (- e)))); [done|]. rewrite Rmult_assoc, Rinv_l by lra. lra.
Qed.
Print Assumptions C71_floor.
(** and there is a mark for each case, if the checker gave both parts for each case. *)
Theorem C71_marks : forall o i v f, length (so_validation o) = length (so_feedback o) -> so_validation o !! i = Some v -> so_feedback o !! i = Some f ->
  length (zip_with case_mark (so_validation o) (so_feedback o)) = length (so_validation o) /\
  zip_with case_mark (so_validation o) (so_feedback o) !! i =
    Some (match fst v, fst f with CaseMissing, _ => MarkMissing | CaseInvalid, _ => MarkInvalid | CaseParsed, true => MarkCorrect | CaseParsed, false => MarkWrong end).
Proof.
  intros o i v f Hlen Hv Hf. split; [rewrite zip_with_length; lia|]. rewrite lookup_zip_with, Hv, Hf. cbn. unfold case_mark. by destruct (fst v), (fst f).
Qed.
Print Assumptions C71_marks.

(** ** A session, and what does not hold *)
Definition ok_result (out : option (list N)) : exec_result := ExecResult Success false false (Resources 1 0 1 10) out (Some []).
Definition bad_result (out : option (list N)) : exec_result := ExecResult (ReturnCode 1) false false (Resources 1 0 1 10) out (Some []).
Definition demo_parse (l : list N) : sol_outcome + string :=
  match l with
  | [49%N] => inl (SolOutcome f64_one [(CaseParsed, None)] [(true, None)])
  | [50%N] => inl (SolOutcome (S754_finite false 9007199254740991 (-53)) [(CaseParsed, None); (CaseMissing, None)] [(true, None)])
  | _ => inr "expected value"
  end.
Definition t_demo_ok : list (t_stage * exec_event) :=
  [(StGenerator, XStarted 0); (StGenerator, XDone (ok_result None)); (StValidator, XStarted 1); (StValidator, XDone (ok_result None));
   (StSolution, XStarted 0); (StSolution, XDone (ok_result None)); (StChecker, XStarted 0); (StChecker, XDone (ok_result (Some [49%N])))].
(* the solution does not compile: it is skipped while the generator is running; then the validator fails *)
Definition t_demo_bad : list (t_stage * exec_event) :=
  [(StGenerator, XStarted 0); (StSolution, XSkipped); (StChecker, XSkipped); (StGenerator, XDone (ok_result None)); (StValidator, XDone (bad_result None))].
Ltac legal_tac := intros l1 st e l2 E; destruct l1 as [|? [|? [|? [|? [|? [|? [|? [|? [|? ?]]]]]]]]]; cbn in E; injection E; intros; simplify_eq;
  repeat (match goal with H : _ ∈ _ :: _ |- _ => apply elem_of_cons in H as [?|H] | H : _ ∈ [] |- _ => by apply elem_of_nil in H end); simplify_eq;
  repeat split; intros; cbn in *; try lia; try done; unfold ends, bad_end in *; naive_solver.
Lemma t_demo_ok_legal : t_legal t_demo_ok. Proof. unfold t_demo_ok. legal_tac. Qed.
Lemma t_demo_bad_legal : t_legal t_demo_bad. Proof. unfold t_demo_bad. legal_tac. Qed.
Definition logs (l : list (t_stage * exec_event)) (sol : path) (seed : N) : list t_message := default [] (t_log demo_parse sol seed l).
Definition t_demo : list t_message :=
  t_pending true "a" 1 ++ t_pending true "b" 2 ++ TMDiagnostic "x" :: take 3 (logs t_demo_ok "a" 1) ++ logs t_demo_bad "b" 2 ++ drop 3 (logs t_demo_ok "a" 1).
Definition lines (o : option t_ui) : list (path * summary) :=
  match o with Some u => map_to_list (summary_line (S754_finite false 7036874417766400 (-46)) <$> tu_solutions u) | None => [] end.
Example C71_example :
  Forall (t_message_ok ["a"; "b"]) t_demo /\
  lines (t_run (session ["a"; "b"] t_demo) new_t_ui) = [("b", SumText "Validator failed"); ("a", SumScore Green (Some 100%Z) [MarkCorrect])] /\
  List.filter (t_about "a") t_demo = t_pending true "a" 1 ++ logs t_demo_ok "a" 1 /\ t_legal t_demo_ok /\
  List.filter (t_about "b") t_demo = t_pending true "b" 2 ++ logs t_demo_bad "b" 2 /\ t_legal t_demo_bad.
Proof.
  split; [|split; [vm_compute; reflexivity|]].
  - repeat constructor; cbn; set_solver.
  - split; [vm_compute; reflexivity|]. split; [apply t_demo_ok_legal|]. split; [vm_compute; reflexivity|apply t_demo_bad_legal].
Qed.

(** A checker that fails after it printed a score gives that score all the same: *)
Theorem C71_checker_failed_refuted : exists parse l log x, t_legal l /\ t_log parse "a" 1 l = Some log /\ x = t_fold (t_pending true "a" 1 ++ log) new_t_state /\
  stage_failed l StChecker /\ ts_status x = TFailed "Checker failed" /\ summary_line (S754_finite false 7036874417766400 (-46)) x = SumScore Green (Some 100%Z) [MarkCorrect].
Proof.
  exists demo_parse, [(StGenerator, XDone (ok_result None)); (StSolution, XDone (ok_result None)); (StChecker, XDone (bad_result (Some [49%N])))].
  eexists. eexists. split; [legal_tac|]. split; [reflexivity|]. split; [reflexivity|]. split; [|vm_compute; split; reflexivity].
  exists (bad_result (Some [49%N])). split; [set_solver|done].
Qed.
(** the status of a solution that does not compile depends on the schedule; *)
Theorem C71_status_refuted : exists l l' s s', t_legal l /\ t_legal l' /\ l ≡ₚ l' /\ t_shown l s /\ t_shown l' s' /\ s = TGenerated /\ s' = TSkipped.
Proof.
  exists [(StSolution, XSkipped); (StChecker, XSkipped); (StGenerator, XDone (ok_result None))], [(StGenerator, XDone (ok_result None)); (StSolution, XSkipped); (StChecker, XSkipped)].
  exists TGenerated, TSkipped. split; [legal_tac|]. split; [legal_tac|]. split; [solve_Permutation || (apply Permutation_sym, (Permutation_cons_append [_; _]))|].
  split; [|split; [|done]].
  - apply (shown_done [_; _] StGenerator). intros st' (r & H & Hr). repeat (apply elem_of_cons in H as [[= -> ->]|H]; [done|]); cbn in H. set_solver.
  - apply (shown_skipped [_; _] StChecker). intros st' (r & H & Hr). repeat (apply elem_of_cons in H as [[= -> ->]|H]; [done|]); cbn in H. set_solver.
Qed.
(** a case for which the checker gave no feedback is not shown, and a score that is not the maximum can be shown in green. *)
Theorem C71_cases_refuted : exists max x o, ts_outcome x = Some (inl o) /\ so_validation o !! 1 = Some (CaseMissing, None) /\
  summary_line max x = SumScore Green (Some 99%Z) [MarkCorrect].
Proof.
  exists (S754_finite false 7036874417766400 (-46)), (set_outcome (inl (SolOutcome (S754_finite false 9007199254740991 (-53)) [(CaseParsed, None); (CaseMissing, None)] [(true, None)])) new_t_state).
  eexists. split; [reflexivity|]. split; [reflexivity|]. vm_compute. reflexivity.
Qed.
