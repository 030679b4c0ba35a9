(** * UiStateProofs: lemmas for property C55 *)
From Verif Require Import UiStateSpec.

(** ** What the messages do to a testcase of a solution *)
Definition tc_step (m : ui_message) (x : tc_state) : option tc_state :=
  match m with
  | MEvaluation _ _ _ s part n => tc_apply_evaluation s part n x
  | MChecker _ _ _ s => Some (tc_apply_checker s x)
  | MTestcaseScore _ _ _ v msg => Some (tc_apply_score v msg x)
  | _ => Some x
  end.
Fixpoint tc_run (ms : list ui_message) (x : tc_state) : option tc_state :=
  match ms with [] => Some x | m :: ms => x ← tc_step m x; tc_run ms x end.
Lemma tc_run_app ms1 ms2 x : tc_run (ms1 ++ ms2) x = y ← tc_run ms1 x; tc_run ms2 y.
Proof. revert x. induction ms1 as [|m ms1 IH]; intros x; simpl; [done|]. destruct (tc_step m x); simpl; [apply IH|done]. Qed.

Section tasks.
  Context (t : ui_task).
  Definition tc_of (u : ui_state) (sol : path) (tc : nat) : option tc_state := e_testcases (the_eval t sol u) !! tc.

  Lemma the_eval_set sol e u sol' : the_eval t sol' (set_eval sol e u) = if decide (sol' = sol) then e else the_eval t sol' u.
  Proof.
    unfold the_eval, set_eval. simpl. case_decide as H.
    - subst. by rewrite lookup_insert.
    - by rewrite lookup_insert_ne.
  Qed.
  Lemma on_generation_evals b st tc f u u' : on_generation b st tc f u = Some u' -> u_evaluations u' = u_evaluations u.
  Proof.
    unfold on_generation. destruct (u_generations u !! st) as [g|]; simpl; [|done]. destruct (g !! tc); [by intros [= <-]|].
    destruct b; [done|]. by intros [= <-].
  Qed.
  Lemma on_testcase_some sol tc f u u' : on_testcase t sol tc f u = Some u' ->
    exists x x', tc_of u sol tc = Some x /\ f x = Some x' /\ tc_of u' sol tc = Some x' /\
      (forall sol' tc', (sol', tc') <> (sol, tc) -> tc_of u' sol' tc' = tc_of u sol' tc').
  Proof.
    unfold on_testcase, tc_of. destruct (e_testcases (the_eval t sol u) !! tc) as [x|] eqn:E; simpl; [|done].
    destruct (f x) as [x'|] eqn:Ef; simpl; [|done]. intros [= <-]. exists x, x'. split; [done|]. split; [done|]. split.
    - rewrite the_eval_set, decide_True by done. simpl. by rewrite lookup_insert.
    - intros sol' tc' Hne. rewrite the_eval_set. case_decide; [|done]. subst. simpl. rewrite lookup_insert_ne; [done|]. intros ->. done.
  Qed.
  Lemma ui_apply_tc m u u' sol tc x : ui_apply t m u = Some u' -> tc_of u sol tc = Some x ->
    exists x', tc_of u' sol tc = Some x' /\ (if about sol tc m then tc_step m x = Some x' else x' = x).
  Proof.
    intros H Hx. assert (forall v, u_evaluations v = u_evaluations u -> exists x', tc_of v sol tc = Some x' /\ x' = x) as Hsame.
    { intros v Hv. exists x. split; [|done]. unfold tc_of, the_eval. by rewrite Hv. }
    assert (forall sol' tc' f, on_testcase t sol' tc' f u = Some u' ->
      exists x', tc_of u' sol tc = Some x' /\ (if bool_decide (sol' = sol /\ tc' = tc) then f x = Some x' else x' = x)) as Htc.
    { intros sol' tc' f Hf. destruct (on_testcase_some _ _ _ _ _ Hf) as (y & y' & Hy & Hfy & Hy' & Ho).
      case_bool_decide as Hc.
      - destruct Hc as [-> ->]. exists y'. split; [done|]. congruence.
      - exists x. split; [|done]. rewrite Ho; [done|]. intros [= <- <-]. by apply Hc. }
    destruct m; cbn [ui_apply about tc_step] in *.
    all: try (injection H as <-; by apply Hsame).
    all: try discriminate H.
    all: try (apply Hsame; eapply on_generation_evals; exact H).
    all: try (apply Htc in H; done).
    - destruct (e_subtasks (the_eval t sol0 u) !! st); simpl in H; [|done]. injection H as <-. exists x. split; [|done].
      unfold tc_of. rewrite the_eval_set. case_decide; [|done]. subst. done.
    - injection H as <-. exists x. split; [|done].
      unfold tc_of. rewrite the_eval_set. case_decide; [|done]. subst. done.
    - case_decide; [|done]. injection H as <-. by apply Hsame.
  Qed.
  Lemma ui_run_tc ms u u' sol tc x : ui_run t ms u = Some u' -> tc_of u sol tc = Some x ->
    exists x', tc_of u' sol tc = Some x' /\ tc_run (List.filter (about sol tc) ms) x = Some x'.
  Proof.
    revert u x. induction ms as [|m ms IH]; intros u x H Hx; simpl in *; [injection H as <-; by exists x|].
    destruct (ui_apply t m u) as [u1|] eqn:E; simpl in H; [|done].
    destruct (ui_apply_tc _ _ _ _ _ _ E Hx) as (x1 & Hx1 & Hs). destruct (IH u1 x1 H Hx1) as (x' & Hx' & Hr).
    exists x'. split; [done|]. destruct (about sol tc m); simpl; [by rewrite Hs|by subst].
  Qed.
  Lemma tc_of_new sol tc : tc ∈ ut_testcases t -> tc_of (new_ui_state t) sol tc = Some new_tc_state.
  Proof. intros H. unfold tc_of, the_eval. simpl. rewrite lookup_empty. simpl. by apply lookup_gset_to_gmap_Some. Qed.
  (** A solution is shown as soon as there is a message about one of its testcases *)
  Lemma ui_apply_evals m u u' sol : ui_apply t m u = Some u' -> is_Some (u_evaluations u !! sol) -> is_Some (u_evaluations u' !! sol).
  Proof.
    intros H Hs. assert (forall sol' e, is_Some (u_evaluations (set_eval sol' e u) !! sol)) as Hset.
    { intros sol' e. unfold set_eval. simpl. destruct (decide (sol' = sol)) as [->|Hne]; [rewrite lookup_insert; by eexists|by rewrite lookup_insert_ne]. }
    assert (forall sol' tc' f, on_testcase t sol' tc' f u = Some u' -> is_Some (u_evaluations u' !! sol)) as Htc.
    { intros sol' tc' f Hf. unfold on_testcase in Hf. destruct (e_testcases (the_eval t sol' u) !! tc') as [x|]; simpl in Hf; [|done].
      destruct (f x); simpl in Hf; [|done]. injection Hf as <-. apply Hset. }
    destruct m; cbn [ui_apply] in *.
    all: try (injection H as <-; done).
    all: try discriminate H.
    all: try (by apply on_generation_evals in H as ->).
    all: try (by apply Htc in H).
    - destruct (e_subtasks (the_eval t sol0 u) !! st); simpl in H; [|done]. injection H as <-. apply Hset.
    - case_decide; [|done]. by injection H as <-.
  Qed.
  Lemma ui_apply_about m u u' sol tc : ui_apply t m u = Some u' -> about sol tc m = true -> is_Some (u_evaluations u' !! sol).
  Proof.
    intros H Ha. assert (forall sol' tc' f, on_testcase t sol' tc' f u = Some u' -> is_Some (u_evaluations u' !! sol')) as Htc.
    { intros sol' tc' f Hf. unfold on_testcase in Hf. destruct (e_testcases (the_eval t sol' u) !! tc') as [x|]; simpl in Hf; [|done].
      destruct (f x); simpl in Hf; [|done]. injection Hf as <-. unfold set_eval. simpl. rewrite lookup_insert. by eexists. }
    destruct m; cbn [ui_apply about] in *; try done; apply bool_decide_eq_true in Ha as [-> ->]; by eapply Htc.
  Qed.
  Lemma ui_run_evals ms u u' sol : ui_run t ms u = Some u' -> is_Some (u_evaluations u !! sol) -> is_Some (u_evaluations u' !! sol).
  Proof.
    revert u. induction ms as [|m ms IH]; intros u H Hs; simpl in *; [by injection H as <-|].
    destruct (ui_apply t m u) as [u1|] eqn:E; simpl in H; [|done]. eapply IH; [done|]. by eapply ui_apply_evals.
  Qed.
  Lemma ui_run_about ms u u' sol tc : ui_run t ms u = Some u' -> List.filter (about sol tc) ms <> [] -> is_Some (u_evaluations u' !! sol).
  Proof.
    revert u. induction ms as [|m ms IH]; intros u H Hs; simpl in *; [done|].
    destruct (ui_apply t m u) as [u1|] eqn:E; simpl in H; [|done]. destruct (about sol tc m) eqn:Ea; [|by eapply IH].
    eapply ui_run_evals; [done|]. by eapply ui_apply_about.
  Qed.
  Lemma tc_of_shown u sol tc : is_Some (u_evaluations u !! sol) -> shown u sol tc = tc_of u sol tc.
  Proof. intros [e He]. unfold shown, tc_of, the_eval. by rewrite He. Qed.
  Lemma shown_run ms u sol tc : ui_run t ms (new_ui_state t) = Some u -> List.filter (about sol tc) ms <> [] -> tc ∈ ut_testcases t ->
    exists x, shown u sol tc = Some x /\ tc_run (List.filter (about sol tc) ms) new_tc_state = Some x.
  Proof.
    intros H Hf Htc. destruct (ui_run_tc _ _ _ _ _ _ H (tc_of_new sol tc Htc)) as (x & Hx & Hr). exists x. split; [|done].
    rewrite tc_of_shown; [done|]. by eapply ui_run_about.
  Qed.

  (** ** The same for the generations *)
  Definition gen_step (m : ui_message) (g : gen_state) : gen_state :=
    match m with
    | MGeneration _ _ s => gen_apply_generation s g
    | MValidation _ _ s => gen_apply_validation s g
    | MSolution _ _ s => gen_apply_solution s g
    | _ => g
    end.
  Lemma on_generation_some b st tc f u u' : on_generation b st tc f u = Some u' ->
    (forall g, shown_gen u st tc = Some g -> shown_gen u' st tc = Some (f g)) /\
    (forall st' tc', (st', tc') <> (st, tc) -> shown_gen u' st' tc' = shown_gen u st' tc').
  Proof.
    unfold on_generation, shown_gen. destruct (u_generations u !! st) as [gs|] eqn:E; simpl; [|done].
    destruct (gs !! tc) as [g|] eqn:Eg.
    - intros [= <-]. simpl. split.
      + intros g' Hg'. rewrite lookup_insert. simpl. rewrite lookup_insert. congruence.
      + intros st' tc' Hne. destruct (decide (st' = st)) as [->|Hst]; [|by rewrite lookup_insert_ne].
        rewrite lookup_insert, E. simpl. rewrite lookup_insert_ne; [done|]. by intros ->.
    - destruct b; [done|]. intros [= <-]. split; [|done]. rewrite E. simpl. congruence.
  Qed.
  Lemma ui_apply_gen m u u' st tc g : ui_apply t m u = Some u' -> shown_gen u st tc = Some g ->
    shown_gen u' st tc = Some (if about_gen st tc m then gen_step m g else g).
  Proof.
    intros H Hg. assert (forall v, u_generations v = u_generations u -> shown_gen v st tc = Some g) as Hsame.
    { intros v Hv. unfold shown_gen. by rewrite Hv. }
    assert (forall sol' tc' f, on_testcase t sol' tc' f u = Some u' -> shown_gen u' st tc = Some g) as Htc.
    { intros sol' tc' f Hf. apply Hsame. unfold on_testcase in Hf. destruct (e_testcases (the_eval t sol' u) !! tc') as [x|]; simpl in Hf; [|done].
      destruct (f x); simpl in Hf; [|done]. by injection Hf as <-. }
    assert (forall b st' tc' f, on_generation b st' tc' f u = Some u' ->
      shown_gen u' st tc = Some (if bool_decide (st' = st /\ tc' = tc) then f g else g)) as Hgen.
    { intros b st' tc' f Hf. destruct (on_generation_some _ _ _ _ _ _ Hf) as [H1 H2]. case_bool_decide as Hc.
      - destruct Hc as [-> ->]. by apply H1.
      - rewrite H2; [done|]. intros [= <- <-]. by apply Hc. }
    destruct m; cbn [ui_apply about_gen gen_step] in *.
    all: try (injection H as <-; by apply Hsame).
    all: try discriminate H.
    all: try (eapply Hgen; exact H).
    all: try (by apply Htc in H).
    - destruct (e_subtasks (the_eval t sol u) !! st0); simpl in H; [|done]. injection H as <-. by apply Hsame.
    - case_decide; [|done]. injection H as <-. by apply Hsame.
  Qed.
  Lemma ui_run_gen ms u u' st tc g : ui_run t ms u = Some u' -> shown_gen u st tc = Some g ->
    shown_gen u' st tc = Some (fold_left (fun g m => gen_step m g) (List.filter (about_gen st tc) ms) g).
  Proof.
    revert u g. induction ms as [|m ms IH]; intros u g H Hg; simpl in *; [by injection H as <-|].
    destruct (ui_apply t m u) as [u1|] eqn:E; simpl in H; [|done].
    pose proof (ui_apply_gen _ _ _ _ _ _ E Hg) as H1. rewrite (IH _ _ H H1). by destruct (about_gen st tc m).
  Qed.
  Lemma shown_gen_new st tc s : ut_subtasks t !! st = Some s -> tc ∈ us_owned s -> shown_gen (new_ui_state t) st tc = Some new_gen_state.
  Proof.
    intros Hs Htc. unfold shown_gen, new_ui_state. simpl. rewrite lookup_fmap, Hs. simpl. apply lookup_gset_to_gmap_Some. split; [|done]. by apply elem_of_list_to_set.
  Qed.
End tasks.

(** ** No panics *)
Section panics.
  Context (t : ui_task).
  (** The keys never change *)
  Record ui_ok (ms : list ui_message) (u : ui_state) : Prop := {
    ok_gen : forall st s, ut_subtasks t !! st = Some s -> exists g, u_generations u !! st = Some g /\ forall tc, tc ∈ us_owned s -> is_Some (g !! tc);
    ok_tc : forall sol tc, tc ∈ ut_testcases t -> is_Some (tc_of t u sol tc);
    ok_st : forall sol st, is_Some (ut_subtasks t !! st) -> is_Some (e_subtasks (the_eval t sol u) !! st);
    ok_bk : forall b name l, bk_deps (the_booklet b u) !! name = Some l -> exists step n s, MBookletDep b name step n s ∈ ms /\ length l = n
  }.
  Lemma ui_ok_new ms : ui_ok ms (new_ui_state t).
  Proof.
    split.
    - intros st s Hs. simpl. rewrite lookup_fmap, Hs. simpl. eexists. split; [done|]. intros tc Htc. exists new_gen_state. apply lookup_gset_to_gmap_Some. split; [|done]. by apply elem_of_list_to_set.
    - intros sol tc Htc. rewrite tc_of_new by done. by eexists.
    - intros sol st [s Hs]. unfold the_eval. simpl. rewrite lookup_empty. simpl. rewrite lookup_fmap, Hs. simpl. by eexists.
    - intros b name l. unfold the_booklet. simpl. rewrite lookup_empty. simpl. by rewrite lookup_empty.
  Qed.
  Lemma tc_apply_evaluation_some s part n x : part < n -> is_Some (tc_apply_evaluation s part n x).
  Proof.
    intros H. unfold tc_apply_evaluation. destruct s; try by eexists. case_decide as H1; [by eexists|]. exfalso. apply H1. case_decide; [lia|]. by rewrite replicate_length.
  Qed.
  Lemma ui_apply_ok ms m u : steps_agree ms -> m ∈ ms -> message_ok t m -> ui_ok ms u -> exists u', ui_apply t m u = Some u' /\ ui_ok ms u'.
  Proof.
    intros Hag Hin Hm [H1 H2 H3 H4].
    assert (forall b st tc f s, ut_subtasks t !! st = Some s -> (b = false \/ tc ∈ us_owned s) ->
      exists u', on_generation b st tc f u = Some u' /\ ui_ok ms u') as Hgen.
    { intros b st tc f s Hs Hb. unfold on_generation. destruct (H1 _ _ Hs) as (g & Hg & Htcs). rewrite Hg. simpl.
      destruct (g !! tc) as [x|] eqn:Ex.
      - eexists. split; [done|]. split; simpl; [|done|done|done]. intros st' s' Hs'. destruct (decide (st' = st)) as [->|Hne].
        + rewrite lookup_insert. eexists. split; [done|]. intros tc' Htc'. destruct (decide (tc' = tc)) as [->|Hne']; [rewrite lookup_insert; by eexists|].
          rewrite lookup_insert_ne by done. apply Htcs. congruence.
        + rewrite lookup_insert_ne by done. by apply H1.
      - destruct Hb as [->|Hb]; [eexists; split; [done|]; by split|]. destruct (Htcs tc Hb). congruence. }
    assert (forall sol e, (forall tc, tc ∈ ut_testcases t -> is_Some (e_testcases e !! tc)) -> (forall st, is_Some (ut_subtasks t !! st) -> is_Some (e_subtasks e !! st)) ->
      ui_ok ms (set_eval sol e u)) as Hset.
    { intros sol e Ht Hst. split; simpl; [done| | |done].
      - intros sol' tc Htc. unfold tc_of. rewrite the_eval_set. case_decide; [by apply Ht|by apply H2].
      - intros sol' st Hs. rewrite the_eval_set. case_decide; [by apply Hst|by apply H3]. }
    assert (forall sol tc f, tc ∈ ut_testcases t -> (forall x, is_Some (f x)) -> exists u', on_testcase t sol tc f u = Some u' /\ ui_ok ms u') as Htc.
    { intros sol tc f Htc Hf. unfold on_testcase. destruct (H2 sol tc Htc) as [x Hx]. unfold tc_of in Hx. rewrite Hx. simpl. destruct (Hf x) as [x' Hx']. rewrite Hx'. simpl.
      eexists. split; [done|]. apply Hset; simpl.
      - intros tc' Htc'. destruct (decide (tc' = tc)) as [->|Hne]; [rewrite lookup_insert; by eexists|]. rewrite lookup_insert_ne by done. by apply (H2 sol).
      - intros st Hst. by apply H3. }
    assert (forall name b, (forall name' l, bk_deps b !! name' = Some l -> exists step n s, MBookletDep name name' step n s ∈ ms /\ length l = n) ->
      ui_ok ms (set_booklet name b u)) as Hbk.
    { intros name b Hb. split; simpl; [done|done|done|]. intros name' dep l Hl. unfold the_booklet, set_booklet in Hl. simpl in Hl.
      destruct (decide (name' = name)) as [->|Hne]; [rewrite lookup_insert in Hl; by apply Hb|]. rewrite lookup_insert_ne in Hl by done. by eapply H4. }
    destruct m; cbn [ui_apply message_ok] in *.
    all: try (eexists; split; [done|]; by split).
    - destruct Hm as (s' & Hs & Ho). eapply Hgen; [done|by right].
    - destruct Hm as (s' & Hs). eapply Hgen; [done|by left].
    - destruct Hm as (s' & Hs & Ho). eapply Hgen; [done|by right].
    - destruct Hm as [Hm Hp]. apply Htc; [done|]. intros x. by apply tc_apply_evaluation_some.
    - apply Htc; [done|]. intros x. by eexists.
    - apply Htc; [done|]. intros x. by eexists.
    - destruct (H3 sol st Hm) as [y Hy]. rewrite Hy. simpl. eexists. split; [done|]. apply Hset; simpl.
      + intros tc Ht. by apply (H2 sol).
      + intros st' Hst'. destruct (decide (st' = st)) as [->|Hne]; [rewrite lookup_insert; by eexists|]. rewrite lookup_insert_ne by done. by apply H3.
    - eexists. split; [done|]. apply Hset; simpl; [intros tc Ht; by apply (H2 sol)|intros; by apply H3].
    - eexists. split; [done|]. apply Hbk. simpl. intros name' l Hl. by eapply H4.
    - rewrite decide_True.
      + eexists. split; [done|]. apply Hbk. simpl. intros name' l Hl. destruct (decide (name' = name)) as [->|Hne].
        * rewrite lookup_insert in Hl. injection Hl as <-. rewrite insert_length. destruct (bk_deps (the_booklet booklet u) !! name) as [l|] eqn:E; simpl; [by eapply H4|].
          exists step, num_steps, s. split; [done|]. by rewrite replicate_length.
        * rewrite lookup_insert_ne in Hl by done. by eapply H4.
      + destruct (bk_deps (the_booklet booklet u) !! name) as [l|] eqn:E; simpl; [|by rewrite replicate_length].
        destruct (H4 _ _ _ E) as (step' & n' & s' & Hin' & ->). by rewrite (Hag _ _ _ _ _ _ _ _ Hin' Hin).
  Qed.
  Lemma ui_run_ok ms u : steps_agree ms -> Forall (message_ok t) ms -> ui_ok ms u -> exists u', ui_run t ms u = Some u'.
  Proof.
    intros Hag Hf Hok. assert (forall ms', (forall m, m ∈ ms' -> m ∈ ms) -> forall u, ui_ok ms u -> exists u', ui_run t ms' u = Some u') as H.
    { induction ms' as [|m ms' IH]; intros Hsub v Hv; simpl; [by eexists|].
      destruct (ui_apply_ok ms m v) as (v' & Hv' & Hok'); [done|apply Hsub; by left|rewrite Forall_forall in Hf; apply Hf, Hsub; by left|done|].
      rewrite Hv'. simpl. apply IH; [|done]. intros m' Hm'. apply Hsub. by right. }
    by apply H.
  Qed.
End panics.
