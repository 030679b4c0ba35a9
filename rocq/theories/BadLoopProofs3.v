(** * BadLoopProofs3: every step keeps the invariant *)
From Verif Require Import BadLoopModel BadLoopSpec BadLoopProofs BadLoopProofs2.
From Coq Require Import Ascii String.
From stdpp Require Import base list.

Section proof.
Context (B : nat -> batch) (size n : nat).
Hypothesis HN : numbered B size n.
Notation wf := (wf B).
Notation inv := (inv B size).

Lemma inv0 : inv sys0.
Proof.
  split; cbn; try done.
  - split; [by apply not_elem_of_nil|done].
  - intros j m []%elem_of_nil.
Qed.

(* a step that only moves the main thread, in the same batch *)
Lemma history_eq y y' : y_applied y' = y_applied y -> y_queue y' = y_queue y -> y_fwd y' = y_fwd y ->
  (y_fwd y = [] \/ batch_no (y_phase y') = batch_no (y_phase y)) -> history y' = history y.
Proof. intros E1 E2 E3 E4. unfold history. rewrite E1, E2, E3. by destruct E4 as [-> | ->]. Qed.
Lemma last_split (l1 l2 a : list (nat * lmsg)) x y : l1 ++ x :: l2 = a ++ [y] -> (l2 = [] /\ l1 = a /\ x = y) \/ exists l2', l2 = l2' ++ [y] /\ a = l1 ++ x :: l2'.
Proof.
  intros E. destruct l2 as [|z l2 _] using rev_ind.
  - left. apply app_inj_tail in E as [-> ->]. done.
  - right. exists l2. change (l1 ++ x :: l2 ++ [z]) with (l1 ++ (x :: l2) ++ [z]) in E. rewrite app_assoc in E. apply app_inj_tail in E as [<- ->]. done.
Qed.

(* only the phase, the sender, the stop flag and who was told to stop change *)
Lemma inv_move y y' : inv y -> y_applied y' = y_applied y -> y_queue y' = y_queue y -> y_fwd y' = y_fwd y -> y_ui y' = y_ui y -> y_poisoned y' = y_poisoned y ->
  y_sent y' = y_sent y -> (y_fwd y = [] \/ batch_no (y_phase y') = batch_no (y_phase y)) ->
  (sh_last (y_shared y') = sh_last (y_shared y)) -> sh_failing (y_shared y') = sh_failing (y_shared y) -> sh_errored (y_shared y') = sh_errored (y_shared y) ->
  (sh_stop (y_shared y) = true -> sh_stop (y_shared y') = true) ->
  (lost (y_phase y') = false -> lost (y_phase y) = false /\ known (y_phase y') = known (y_phase y)) ->
  match y_phase y' with PStart i | PBuild i => tasks (history y) = i | PError i | PPanic i => tasks (history y) <= S i
            | p => tasks (history y) = S (batch_no p) end ->
  match y_phase y' with PReady _ | PEval _ | PDrain _ | PError _ | PPanic _ => True | _ => y_fwd y = [] end ->
  match y_phase y' with
            | PWait _ => match y_ui y with UiRun _ => exists l, y_queue y = l ++ [QStop] /\ QStop ∉ l | UiDone _ => y_queue y = [] | UiCrash => True end
            | PReport _ => y_queue y = [] /\ exists u, y_ui y = UiDone u
            | PError _ | PPanic _ => True
            | _ => QStop ∉ y_queue y /\ forall u, y_ui y <> UiDone u
            end ->
  (ended (y_phase y') = false -> y_sender y' = match y_phase y' with PEval i => Some i | _ => None end) -> inv y'.
Proof.
  intros [h1 h2 h3 h4 h5 h6 h7 h8 h9 h10 h11 h12] E1 E2 E3 E4 E5 E6 EI EL EF EE ES EK T1 T2 T3 T4.
  pose proof (history_eq y y' E1 E2 E3 EI) as EH. split.
  - by rewrite EH.
  - by rewrite EH.
  - by rewrite E3.
  - by rewrite E2, E4.
  - intros L. destruct (EK L) as [L' ->]. rewrite EL. by apply h5.
  - by rewrite E4, E1, E5.
  - by rewrite EF, E1.
  - by rewrite EE, E1.
  - intros L. destruct (EK L) as [L' ->]. rewrite E1, EF. by apply h9.
  - rewrite E1. intros j m Hin Hm. apply ES. by eapply h10.
  - by rewrite E6, EH.
  - done.
Qed.

Lemma known_le p i : known p = Some i -> i <= batch_no p.
Proof. destruct p as [[|k]| | | | | | | | |]; cbn; intros E; try done; injection E as <-; lia. Qed.

Lemma inv_step y y' : inv y -> any_step B size y y' -> batch_no (y_phase y) <= n -> inv y'.
Proof.
  intros HI [HS|HS] Hn; pose proof HI as [h1 h2 h3 h4 h5 h6 h7 h8 h9 h10 h11 h12].
  2:{ destruct HS as [y He Hp]. apply (inv_move y); try done; try (by destruct (y_phase y)). by right. }
  destruct HS as [i y Hp Hq|i y Hp|i y Hp|i y Hp|i y Hp Hf|i y Hp Hq Hs|i y Hp Hq Hs|i u y Hp Hu Hq|i y Hp Hu|i y Hp|i y Hp Hq|i m y Hp Hm|i m l y Hp Hf|i y Hp|i m q u y He Hu Hq|q u y He Hu Hq].
  - (* set *) rewrite Hp in *. cbn in h2, h3, h4. assert (EH : forall j m tc, (j, m) ∈ y_applied y -> about m = Some tc -> j < i).
    { intros j m tc Hin Hm. destruct (wf_elem B (history y) 0 j m tc h1) as [Hj _]; [apply elem_of_app; by left|done|lia]. }
    assert (EE : history (set_phase (PBuild i) (set_shared (Shared i (sh_stop (y_shared y)) (Some (B i)) (sh_failing (y_shared y)) (sh_errored (y_shared y))) y)) = history y).
    { apply history_eq; cbn; try done. by left. }
    split; cbn [y_phase set_phase y_fwd y_queue y_ui y_shared set_shared y_poisoned y_sender y_sent y_applied sh_last sh_failing sh_errored sh_stop lost ended]; try done.
    + by rewrite EE.
    + by rewrite EE.
    + intros _ l1 j m l2 tc msg El Hf Hl Hj. cbn in Hj. injection Hj as ->. destruct Hf as (sc & -> & Hf).
      exfalso. assert (j < j); [|lia]. apply (EH j (LScore tc sc msg) tc); [|done]. rewrite El. apply elem_of_app. right. by left.
    + by rewrite EE.
  - (* build *) rewrite Hp in *. cbn in h2, h3, h4, h5, h12.
    assert (EE : history (set_phase (PReady i) (send i LTask y)) = history y ++ [(i, LTask)]).
    { unfold history. rewrite Hp. cbn. rewrite h3. cbn. by rewrite app_nil_r, <-app_assoc. }
    split; cbn [y_phase set_phase send y_fwd y_queue y_ui y_shared y_poisoned y_sender y_sent y_applied lost ended known]; try done.
    + rewrite EE. apply wf_app. split; [done|]. cbn. split; [by intros _; lia|]. done.
    + rewrite EE, tasks_app, h2, tasks_one. cbn. lia.
    + rewrite EE, !heard_app. by f_equal.
  - (* connect *) rewrite Hp in *. apply (inv_move y); try done; rewrite ?Hp; try done. by right.
  - (* evaluated *) rewrite Hp in *. apply (inv_move y); try done; rewrite ?Hp; try done. by right.
  - (* joined *) rewrite Hp in *. apply (inv_move y); try done; rewrite ?Hp; try done. by left.
  - (* break *) rewrite Hp in *. cbn in h2, h3, h4, h5, h12.
    assert (EE : history (set_phase (PWait i) (enqueue QStop y)) = history y).
    { unfold history. rewrite Hp. cbn. by rewrite qmsgs_app, app_nil_r. }
    split; cbn [y_phase set_phase enqueue y_fwd y_queue y_ui y_shared y_poisoned y_sender y_sent y_applied lost ended known batch_no]; try done.
    + by rewrite EE.
    + by rewrite EE.
    + destruct h4 as [h4 h4']. destruct (y_ui y) as [u|u|]; [by exists (y_queue y)|by destruct (h4' u)|done].
    + by rewrite EE.
  - (* next *) rewrite Hp in *. apply (inv_move y); try done; rewrite ?Hp; try done. by left.
  - (* report *) rewrite Hp in *. rewrite Hu in *. apply (inv_move y); try done; rewrite ?Hp, ?Hu; try done; [by left|]. split; [done|]. by exists u.
  - (* the UI failed *) rewrite Hp in *. cbn in h2. apply (inv_move y); try done; rewrite ?Hp; try done; cbn; [by right|lia].
  - (* error *) assert (Ei : batch_no (y_phase y) = i) by (destruct Hp as [-> | [-> | [-> | ->]]]; done).
    apply (inv_move y); try done; cbn; [by right|]. destruct Hp as [E | [E | [E | E]]]; rewrite E in h2; cbn in h2; lia.
  - (* panic *) assert (Ei : batch_no (y_phase y) = i) by (destruct Hp as [-> | [-> | ->]]; done).
    apply (inv_move y); try done; cbn; [by right|]. destruct Hp as [E | [E | E]]; rewrite E in h2; cbn in h2; lia.
  - (* send *) rewrite Hp in *. cbn in h2, h3, h4, h5, h12.
    assert (EE : history (send i m y) = history y ++ [(i, m)]).
    { unfold history. cbn. rewrite Hp. cbn. by rewrite map_app, !app_assoc. }
    assert (Ht : is_task m = false) by (by destruct m).
    split; cbn [y_phase send y_fwd y_queue y_ui y_shared y_poisoned y_sender y_sent y_applied]; rewrite ?Hp; try done; cbn [lost ended known batch_no]; try done.
    + rewrite EE. apply wf_app. split; [done|]. cbn. split; [by intros ->|]. split; [|done]. intros tc Hm'. rewrite h2. split; [done|].
      destruct m; cbn in Hm'; try done; injection Hm' as ->; done.
    + by rewrite EE, tasks_app, h2, tasks_one, Ht, Nat.add_0_r.
    + rewrite EE, !heard_app. by f_equal.
  - (* forward *) assert (Ei : batch_no (y_phase y) = i) by (destruct Hp as [-> | [-> | ->]]; done).
    assert (EE : history (enqueue (QMsg i m) (set_fwd l y)) = history y).
    { unfold history. cbn. rewrite Hf, Ei, qmsgs_app. cbn. by rewrite <-(app_assoc (qmsgs (y_queue y))). }
    split; cbn [y_phase enqueue set_fwd y_fwd y_queue y_ui y_shared y_poisoned y_sender y_sent y_applied]; try done; rewrite ?EE; try done.
    + destruct Hp as [-> | [-> | ->]]; done.
    + assert (QStop ∉ y_queue y /\ forall u, y_ui y <> UiDone u) as [Hn' Hu'] by (destruct Hp as [E | [E | E]]; rewrite E in h4; done).
      assert (QStop ∉ y_queue y ++ [QMsg i m]) by (rewrite elem_of_app, elem_of_list_singleton; naive_solver). destruct Hp as [-> | [-> | ->]]; done.
  - (* the status of the server *) rewrite Hp in *. cbn in h2, h3, h4, h5, h12.
    assert (EE : exists a b, history y = a ++ b /\ history (enqueue (QMsg i LOther) y) = a ++ (i, LOther) :: b).
    { exists (y_applied y ++ qmsgs (y_queue y)), (map (pair i) (y_fwd y)). unfold history. cbn. rewrite Hp, qmsgs_app. cbn. by rewrite <-!app_assoc. }
    destruct EE as (a & b & E1 & E2). rewrite E1 in h1, h2, h11.
    split; cbn [y_phase enqueue y_fwd y_queue y_ui y_shared y_poisoned y_sender y_sent y_applied]; rewrite ?Hp, ?E2; try done; cbn [lost ended known batch_no]; try done.
    + by apply wf_other.
    + rewrite tasks_app, tasks_cons. cbn. by rewrite <-tasks_app.
    + destruct h4 as [h4 h4']. split; [|done]. rewrite elem_of_app, elem_of_list_singleton. naive_solver.
    + rewrite h11, !heard_app. f_equal.
  - (* the UI *)
    assert (EH : history y = (y_applied y ++ [(i, m)]) ++ qmsgs q ++ map (pair (batch_no (y_phase y))) (y_fwd y)).
    { unfold history. rewrite Hq. cbn. by rewrite <-app_assoc. }
    assert (HT : tasks (history y) <= S (batch_no (y_phase y))) by (destruct (y_phase y); cbn in *; lia).
    assert (L : lost (y_phase y) = false) by (destruct (y_phase y); done). rewrite Hu in h6. destruct h6 as (h6 & h6p & h6g & h6s).
    assert (HL : about m <> None -> exists c, known (y_phase y) = Some c /\ sh_last (y_shared y) = Some (B c)).
    { intros Ha. destruct (about m) as [tc|] eqn:Em; [|done]. rewrite EH in h1. apply wf_app in h1 as [h1 _]. apply wf_app in h1 as [_ (_ & Hw & _)].
      destruct (Hw tc Em) as [Ht _]. rewrite EH, !tasks_app in h2. rewrite (h5 L). destruct (y_phase y) as [[|k]|k|k|k|k|k|k|k|k|k] eqn:Ep; cbn in h2; try lia; try done; by eexists. }
    pose proof h1 as W. rewrite EH in W. apply wf_app in W as [W _]. rewrite EH, tasks_app in HT.
    set (b := match known (y_phase y) with Some c => B c | None => ∅ end).
    assert (HLb : about m <> None -> sh_last (y_shared y) = Some b). { intros Ha. destruct (HL Ha) as (c & Ec & El). unfold b. by rewrite Ec. }
    assert (HQ : QStop ∉ y_queue y -> QStop ∉ q) by (rewrite Hq, elem_of_cons; tauto).
    destruct (apply_spec B size n HN u (y_shared y) (y_applied y) i m b h6 W ltac:(lia) HLb h6g h6s) as
      [(u' & s' & stop & EA & Hsh & Hg & Hs & Ei & El & Hcase)|(EA & tc & msg & r & Hbr & Hnone)]; unfold ui_turn; rewrite EA.
    + set (y1 := Sys (y_phase y) (y_fwd y) q (UiRun u') s' (y_poisoned y) (y_sender y) (y_stopped y) (y_sent y) (y_applied y ++ [(i, m)])).
      assert (I1 : inv y1).
      { assert (E1 : history y1 = history y) by (rewrite EH; done). assert (OLD : forall x, x ∈ y_applied y -> x ∈ y_applied y ++ [(i, m)]) by (intros x Hx; apply elem_of_app; by left).
        assert (NEW : (i, m) ∈ y_applied y ++ [(i, m)]) by (apply elem_of_app; right; by left).
        split; rewrite ?E1; cbn [y1 y_phase y_fwd y_queue y_ui y_shared y_poisoned y_sender y_sent y_applied]; try done.
        - destruct (y_phase y); try done; try (destruct h4 as [h4 _]; split; [by apply HQ|done]). rewrite Hu in h4. destruct h4 as (l & E & Hl).
          rewrite Hq in E. destruct l as [|x l]; [done|]. cbn in E. injection E as <- ->. exists l. split; [done|]. intros Hx. apply Hl. by right.
        - rewrite El. exact h5.
        - intros d msg Hd. destruct Hcase as [(tc & ms & Hf & _ & _ & _ & Ef)|(_ & _ & _ & Ef & _)].
          + rewrite Ef in Hd. assert (Ha : about m = Some tc) by (by destruct Hf as (sc & -> & _)). destruct (HL ltac:(by rewrite Ha)) as (c & Ec & Elc). unfold b in Hd. rewrite Ec in Hd.
            destruct (B c !! tc) as [d'|] eqn:Eb; [|done]. injection Hd as <- <-. exists i, m, tc. split; [done|]. split; [done|].
            (* the same batch *) apply wf_app in W as [_ (_ & Hw & _)]. destruct (Hw tc Ha) as [_ Hb]. destruct (decide (i = c)) as [->|Ne]; [done|]. exfalso.
            assert (i <= n /\ c <= n) as [? ?]. { split; [|pose proof (known_le _ _ Ec); lia]. destruct (Hw tc Ha) as [Hk _]. rewrite tasks_app in HT. lia. }
            destruct (HN i tc) as (x & Hx & ->); [done|done|]. destruct (HN c (i * size + x)) as (x' & Hx' & E); [done|by eexists|]. nia.
          + rewrite Ef in Hd. destruct (h7 d msg Hd) as (i' & m' & tc & Hin & H). exists i', m', tc. split; [by apply OLD|done].
        - intros d msg r Hd. destruct Hcase as [(tc & ms & Hf & _ & _ & Ef & _)|(_ & _ & _ & _ & [Ef|(tc & ms & r' & d' & Hbr & Hb & Ef)])].
          + rewrite Ef in Hd. destruct (h8 d msg r Hd) as (i' & m' & tc' & Hin & H). exists i', m', tc'. split; [by apply OLD|done].
          + rewrite Ef in Hd. destruct (h8 d msg r Hd) as (i' & m' & tc' & Hin & H). exists i', m', tc'. split; [by apply OLD|done].
          + rewrite Ef in Hd. injection Hd as <- <- <-. assert (Ha : about m = Some tc) by (by destruct Hbr as [_ [[-> _]|[-> _]]]). destruct (HL ltac:(by rewrite Ha)) as (c & Ec & Elc). unfold b in Hb. rewrite Ec in Hb.
            exists i, m, tc. split; [done|]. split; [done|]. apply wf_app in W as [_ (_ & Hw & _)]. destruct (Hw tc Ha) as [Hk Hbi]. destruct (decide (i = c)) as [->|Ne]; [done|]. exfalso.
            assert (i <= n /\ c <= n) as [? ?]. { split; [|pose proof (known_le _ _ Ec); lia]. rewrite tasks_app in HT. lia. }
            destruct (HN i tc) as (x & Hx & ->); [done|done|]. destruct (HN c (i * size + x)) as (x' & Hx' & E); [done|by eexists|]. nia.
        - intros _ l1 j m0 l2 tc msg Es Hf Hl Hk. symmetry in Es. apply last_split in Es as [(-> & -> & E)|(l2' & -> & E)].
          + injection E as -> ->. destruct Hcase as [(tc' & ms & Hf' & _ & _ & _ & Ef)|(Hnf & _)]; [|destruct Hnf; by exists tc, msg].
            destruct Hf as (sc & -> & Hf). destruct Hf' as (sc' & E & _). injection E as <- <- <-. rewrite Ef. unfold b. rewrite Hk.
            apply wf_app in W as [_ (_ & Hw & _)]. destruct (Hw tc eq_refl) as [_ [d Hd]]. exists d. by rewrite Hd.
          + destruct Hcase as [(tc' & ms & Hf' & _)|(Hnf & _ & _ & Ef & _)].
            * exfalso. apply (Hl i m); [apply elem_of_app; right; by left|]. by exists tc', ms.
            * rewrite Ef. apply (h9 L l1 j m0 l2' tc msg E Hf); [|done]. intros j' m' Hin. apply (Hl j'). apply elem_of_app. by left.
        - intros j m' Hin Hf'. destruct Hcase as [(_ & _ & _ & _ & Es & _)|(Hnf & _ & Es & _)]; [done|]. rewrite Es. apply elem_of_app in Hin as [Hin|Hin].
          + by apply (h10 j m').
          + apply elem_of_list_singleton in Hin. injection Hin as -> ->. done. }
      destruct stop; [|exact I1]. apply (inv_move y1); try done; destruct I1 as [g1 g2 g3 g4 g5 g6 g7 g8 g9 g10 g11 g12]; try done. by right.
    + assert (NF : ~ fails m) by (intros (tc' & ms & sc & -> & _); by destruct Hbr as [_ [[? _]|[? _]]]).
      assert (EH2 : history (Sys (y_phase y) (y_fwd y) q UiCrash (y_shared y) (y_poisoned y || true) (y_sender y) (y_stopped y) (y_sent y) (y_applied y ++ [(i, m)])) = history y) by (rewrite EH; done).
      split; cbn [y_phase y_fwd y_queue y_ui y_shared y_poisoned y_sender y_sent y_applied]; try done.
      * by rewrite EH2.
      * by rewrite EH2.
      * destruct (y_phase y); try done; try (destruct h4 as [h4 _]; split; [by apply HQ|done]).
      * by rewrite h6p.
      * intros d msg' Hd. destruct (h7 d msg' Hd) as (i' & m' & tc' & Hin & H). exists i', m', tc'. split; [apply elem_of_app; by left|done].
      * intros d msg' r' Hd. destruct (h8 d msg' r' Hd) as (i' & m' & tc' & Hin & H). exists i', m', tc'. split; [apply elem_of_app; by left|done].
      * intros _ l1 j m0 l2 tc' msg' Es Hf Hl Hk. symmetry in Es. apply last_split in Es as [(-> & -> & E)|(l2' & -> & E)].
        -- injection E as -> ->. destruct NF. by exists tc', msg'.
        -- apply (h9 L l1 j m0 l2' tc' msg' E Hf); [|done]. intros j' m' Hin. apply (Hl j'). apply elem_of_app. by left.
      * intros j m' Hin Hf'. apply elem_of_app in Hin as [Hin|Hin]; [by apply (h10 j m')|]. apply elem_of_list_singleton in Hin. injection Hin as -> ->. done.
      * by rewrite EH2.
  - (* the UI ends *)
    rewrite Hu in h6. assert (EW : exists i, y_phase y = PWait i /\ q = []).
    { destruct (y_phase y) as [i|i|i|i|i|i|i|i|i|i] eqn:Ep; try done; try (by destruct h4 as [h4 _]; destruct h4; rewrite Hq; left).
      rewrite Hu in h4. destruct h4 as (l & E & Hl). rewrite Hq in E. exists i. split; [done|]. destruct l as [|x l]; [by injection E|]. injection E as <- ->. destruct Hl. by left. }
    destruct EW as (i & Hp & ->). rewrite Hp in *.
    assert (EE : history (Sys (y_phase y) (y_fwd y) [] (UiDone u) (y_shared y) (y_poisoned y) (y_sender y) (y_stopped y) (y_sent y) (y_applied y)) = history y).
    { unfold history. cbn. by rewrite Hp, Hq. }
    rewrite Hp in EE. split; rewrite ?EE; cbn [y_phase y_fwd y_queue y_ui y_shared y_poisoned y_sender y_sent y_applied]; done.
Qed.
End proof.
