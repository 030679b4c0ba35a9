(** * BadLoopProofs2: the invariant is kept *)
From Verif Require Import BadLoopModel BadLoopSpec BadLoopProofs.
From Coq Require Import Ascii String.
From stdpp Require Import base list.

Lemma count_snoc f l j m : count f (l ++ [(j, m)]) = count f l + (if f m then 1 else 0).
Proof. unfold count. rewrite filter_app, app_length, filter_cons, filter_nil. cbn. by destruct (f m). Qed.
Lemma success_dec r : is_success (res_status r) = true <-> res_status r = Success.
Proof. by destruct (res_status r). Qed.

Section proof.
Context (B : nat -> batch) (size n : nat).
Hypothesis HN : numbered B size n.
Notation wf := (wf B).
Notation shown_ok := (shown_ok size).

Lemma apply_spec u s a j m b : shown_ok u a -> wf 0 (a ++ [(j, m)]) -> tasks (a ++ [(j, m)]) <= S n -> (about m <> None -> sh_last s = Some b) ->
  u_generated u = count gen_done a -> u_solved u = count eval_done a ->
  (exists u' s' stop, apply_msg size u s m = AOk u' s' stop /\ shown_ok u' (a ++ [(j, m)]) /\
     u_generated u' = count gen_done (a ++ [(j, m)]) /\ u_solved u' = count eval_done (a ++ [(j, m)]) /\
     sh_index s' = sh_index s /\ sh_last s' = sh_last s /\
     ((exists tc msg, failing_score m tc msg /\ stop = true /\ sh_stop s' = true /\ sh_errored s' = sh_errored s /\
         sh_failing s' = match b !! tc with Some d => Some (d, msg) | None => None end) \/
      (~ fails m /\ stop = false /\ sh_stop s' = sh_stop s /\ sh_failing s' = sh_failing s /\
         (sh_errored s' = sh_errored s \/
          exists tc msg r d, broken m tc msg r /\ b !! tc = Some d /\ sh_errored s' = Some (d, msg, r))))) \/
  (apply_msg size u s m = APanic true /\ exists tc msg r, broken m tc msg r /\ b !! tc = None).
Proof.
  intros HS W HT HL Hg He. apply wf_app in W as [Wa (Wt & Wm & _)]. rewrite tasks_app, tasks_one in HT. rewrite !count_snoc.
  assert (SET : forall tc st u1, u_batches u1 = u_batches u -> about m = Some tc -> shows m = Some st ->
    exists u', set_status size tc st u1 = Some u' /\ u_generated u' = u_generated u1 /\ u_solved u' = u_solved u1 /\ shown_ok u' (a ++ [(j, m)])).
  { intros tc st u1 Eu Ha Hs. destruct (Wm tc Ha) as [Hk Hb]. assert (HS1 : shown_ok u1 a) by (destruct HS as [h1 h2]; split; by rewrite Eu).
    apply (shown_set B size n HN u1 a j m tc st HS1 Ha Hs); [lia|lia|done]. }
  assert (NF : (forall tc sc ms, m <> LScore tc sc ms) -> ~ fails m) by (intros H (tc & ms & sc & E & _); by apply (H tc sc ms)).
  destruct m as [|tc e|tc e|tc e|tc e|tc sc ms|].
  - left. cbn [apply_msg]. eexists _, _, _. split; [done|]. split; [apply (shown_task B size n HN); [done|done|cbn in HT; lia]|].
    cbn. split; [lia|]. split; [lia|]. split; [done|]. split; [done|]. right. split; [by apply NF|]. split; [done|]. split; [done|]. split; [done|by left].
  - destruct e as [|r|]; cbn [apply_msg].
    + left. unfold then_set. destruct (SET tc TGenerating u eq_refl eq_refl eq_refl) as (u' & -> & E1 & E2 & Hs). eexists _, _, _. split; [done|]. split; [done|].
      cbn. rewrite E1, E2. split; [lia|]. split; [lia|]. split; [done|]. split; [done|]. right. split; [by apply NF|]. split; [done|]. split; [done|]. split; [done|by left].
    + set (u1 := Ui (u_batches u) (S (u_generated u)) (u_solved u)). destruct (is_success (res_status r)) eqn:Er.
      * left. unfold then_set. destruct (SET tc TGenerated u1 eq_refl eq_refl) as (u' & -> & E1 & E2 & Hs); [cbn; by rewrite decide_True by by apply success_dec|].
        eexists _, _, _. split; [done|]. split; [done|]. rewrite E1, E2. cbn. split; [lia|]. split; [lia|]. split; [done|]. split; [done|]. right. split; [by apply NF|]. split; [done|]. split; [done|]. split; [done|by left].
      * assert (Hr : res_status r <> Success) by (intros E; apply success_dec in E; congruence). unfold fail_case.
        destruct (SET tc TError u1 eq_refl eq_refl) as (u' & -> & E1 & E2 & Hs); [cbn; by rewrite decide_False|]. rewrite HL by done. destruct (b !! tc) as [d|] eqn:Eb.
        -- left. eexists _, _, _. split; [done|]. split; [done|]. rewrite E1, E2. cbn. split; [lia|]. split; [lia|]. split; [done|]. split; [done|]. right. split; [by apply NF|]. split; [done|]. split; [done|]. split; [done|].
           right. exists tc, "Generator failed", r, d. split; [|done]. split; [done|by left].
        -- right. split; [done|]. exists tc, "Generator failed", r. split; [|done]. split; [done|by left].
    + left. eexists _, _, _. split; [done|]. split; [by eapply shown_same|]. cbn. split; [lia|]. split; [lia|]. split; [done|]. split; [done|]. right. split; [by apply NF|]. split; [done|]. split; [done|]. split; [done|by left].
  - destruct e as [|r|]; cbn [apply_msg].
    + left. unfold then_set. destruct (SET tc TValidating u eq_refl eq_refl eq_refl) as (u' & -> & E1 & E2 & Hs). eexists _, _, _. split; [done|]. split; [done|].
      cbn. rewrite E1, E2. split; [lia|]. split; [lia|]. split; [done|]. split; [done|]. right. split; [by apply NF|]. split; [done|]. split; [done|]. split; [done|by left].
    + destruct (is_success (res_status r)) eqn:Er.
      * left. unfold then_set. destruct (SET tc TValidated u eq_refl eq_refl) as (u' & -> & E1 & E2 & Hs); [cbn; by rewrite decide_True by by apply success_dec|].
        eexists _, _, _. split; [done|]. split; [done|]. rewrite E1, E2. cbn. split; [lia|]. split; [lia|]. split; [done|]. split; [done|]. right. split; [by apply NF|]. split; [done|]. split; [done|]. split; [done|by left].
      * assert (Hr : res_status r <> Success) by (intros E; apply success_dec in E; congruence). unfold fail_case.
        destruct (SET tc TError u eq_refl eq_refl) as (u' & -> & E1 & E2 & Hs); [cbn; by rewrite decide_False|]. rewrite HL by done. destruct (b !! tc) as [d|] eqn:Eb.
        -- left. eexists _, _, _. split; [done|]. split; [done|]. rewrite E1, E2. cbn. split; [lia|]. split; [lia|]. split; [done|]. split; [done|]. right. split; [by apply NF|]. split; [done|]. split; [done|]. split; [done|].
           right. exists tc, "Validator failed", r, d. split; [|done]. split; [done|by right].
        -- right. split; [done|]. exists tc, "Validator failed", r. split; [|done]. split; [done|by right].
    + left. eexists _, _, _. split; [done|]. split; [by eapply shown_same|]. cbn. split; [lia|]. split; [lia|]. split; [done|]. split; [done|]. right. split; [by apply NF|]. split; [done|]. split; [done|]. split; [done|by left].
  - destruct e as [|r|]; cbn [apply_msg].
    + left. unfold then_set. destruct (SET tc TSolving u eq_refl eq_refl eq_refl) as (u' & -> & E1 & E2 & Hs). eexists _, _, _. split; [done|]. split; [done|].
      cbn. rewrite E1, E2. split; [lia|]. split; [lia|]. split; [done|]. split; [done|]. right. split; [by apply NF|]. split; [done|]. split; [done|]. split; [done|by left].
    + destruct (is_success (res_status r)) eqn:Er.
      * left. destruct (SET tc TSolved u eq_refl eq_refl) as (u' & -> & E1 & E2 & Hs); [cbn; by rewrite decide_True by by apply success_dec|].
        eexists _, _, _. split; [done|]. split; [by destruct Hs; split|]. cbn. rewrite E1, E2. split; [lia|]. split; [lia|]. split; [done|]. split; [done|]. right. split; [by apply NF|]. split; [done|]. split; [done|]. split; [done|by left].
      * assert (Hr : res_status r <> Success) by (intros E; apply success_dec in E; congruence). left. eexists _, _, _. split; [done|].
        split; [by eapply shown_same; [exact HS|done|done|]; cbn; rewrite decide_False|]. cbn. split; [lia|]. split; [lia|]. split; [done|]. split; [done|]. right. split; [by apply NF|]. split; [done|]. split; [done|]. split; [done|by left].
    + left. eexists _, _, _. split; [done|]. split; [by eapply shown_same|]. cbn. split; [lia|]. split; [lia|]. split; [done|]. split; [done|]. right. split; [by apply NF|]. split; [done|]. split; [done|]. split; [done|by left].
  - destruct e as [|r|]; cbn [apply_msg].
    + left. unfold then_set. destruct (SET tc TChecking u eq_refl eq_refl eq_refl) as (u' & -> & E1 & E2 & Hs). eexists _, _, _. split; [done|]. split; [done|].
      cbn. rewrite E1, E2. split; [lia|]. split; [lia|]. split; [done|]. split; [done|]. right. split; [by apply NF|]. split; [done|]. split; [done|]. split; [done|by left].
    + left. eexists _, _, _. split; [done|]. split; [by eapply shown_same|]. cbn. split; [lia|]. split; [lia|]. split; [done|]. split; [done|]. right. split; [by apply NF|]. split; [done|]. split; [done|]. split; [done|by left].
    + left. eexists _, _, _. split; [done|]. split; [by eapply shown_same|]. cbn. split; [lia|]. split; [lia|]. split; [done|]. split; [done|]. right. split; [by apply NF|]. split; [done|]. split; [done|]. split; [done|by left].
  - left. cbn [apply_msg]. destruct (f64_eq sc f64_one) eqn:Ef.
    + unfold then_set. destruct (SET tc TSuccess u eq_refl eq_refl) as (u' & -> & E1 & E2 & Hs); [cbn; by rewrite Ef|]. eexists _, _, _. split; [done|]. split; [done|].
      cbn. rewrite E1, E2. split; [lia|]. split; [lia|]. split; [done|]. split; [done|]. right.
      split; [|split; [done|]; split; [done|]; split; [done|by left]]. intros (tc' & ms' & sc' & E & E'). injection E as -> -> ->. congruence.
    + destruct (SET tc (TFailed ms) u eq_refl eq_refl) as (u' & -> & E1 & E2 & Hs); [cbn; by rewrite Ef|]. rewrite HL by done. eexists _, _, _. split; [done|]. split; [done|].
      cbn. rewrite E1, E2. split; [lia|]. split; [lia|]. split; [done|]. split; [done|]. left. exists tc, ms. split; [by exists sc|]. done.
  - left. cbn [apply_msg]. eexists _, _, _. split; [done|]. split; [by eapply shown_same|]. cbn. split; [lia|]. split; [lia|]. split; [done|]. split; [done|]. right. split; [by apply NF|]. split; [done|]. split; [done|]. split; [done|by left].
Qed.

(** ** The invariant *)
Definition history (y : sys) : list (nat * lmsg) := y_applied y ++ qmsgs (y_queue y) ++ map (pair (batch_no (y_phase y))) (y_fwd y).
(* the batch that the shared state knows *)
Definition known (p : phase) : option nat :=
  match p with PStart 0 => None | PStart (S i) => Some i | p => Some (batch_no p) end.
Definition lost (p : phase) : bool := match p with PError _ | PPanic _ => true | _ => false end.

Record inv (y : sys) : Prop := {
  v_wf : wf 0 (history y);
  v_tasks : match y_phase y with PStart i | PBuild i => tasks (history y) = i | PError i | PPanic i => tasks (history y) <= S i
            | p => tasks (history y) = S (batch_no p) end;
  v_fwd : match y_phase y with PReady _ | PEval _ | PDrain _ | PError _ | PPanic _ => True | _ => y_fwd y = [] end;
  v_queue : match y_phase y with
            | PWait _ => match y_ui y with UiRun _ => exists l, y_queue y = l ++ [QStop] /\ QStop ∉ l | UiDone _ => y_queue y = [] | UiCrash => True end
            | PReport _ => y_queue y = [] /\ exists u, y_ui y = UiDone u
            | PError _ | PPanic _ => True
            | _ => QStop ∉ y_queue y /\ forall u, y_ui y <> UiDone u
            end;
  v_last : lost (y_phase y) = false -> sh_last (y_shared y) = B <$> known (y_phase y);
  v_ui : match y_ui y with
         | UiRun u | UiDone u => shown_ok u (y_applied y) /\ y_poisoned y = false /\
             u_generated u = count gen_done (y_applied y) /\ u_solved u = count eval_done (y_applied y)
         | UiCrash => y_poisoned y = true
         end;
  v_found : forall d msg, sh_failing (y_shared y) = Some (d, msg) ->
     exists i m tc, (i, m) ∈ y_applied y /\ failing_score m tc msg /\ B i !! tc = Some d;
  v_errored : forall d msg r, sh_errored (y_shared y) = Some (d, msg, r) ->
     exists i m tc, (i, m) ∈ y_applied y /\ broken m tc msg r /\ B i !! tc = Some d;
  v_final : lost (y_phase y) = false -> forall l1 j m l2 tc msg, y_applied y = l1 ++ (j, m) :: l2 -> failing_score m tc msg ->
     (forall j' m', (j', m') ∈ l2 -> ~ fails m') -> known (y_phase y) = Some j ->
     exists d, B j !! tc = Some d /\ sh_failing (y_shared y) = Some (d, msg);
  v_stop : forall j m, (j, m) ∈ y_applied y -> fails m -> sh_stop (y_shared y) = true;
  v_sent : heard (y_sent y) = heard (history y);
  v_sender : ended (y_phase y) = false -> y_sender y = match y_phase y with PEval i => Some i | _ => None end
}.
End proof.
