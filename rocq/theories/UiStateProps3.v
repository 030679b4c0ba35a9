(** * UiStateProps3: property C55: scores, compilations, solutions, booklets show the last message about them *)
From Verif Require Import UiStateSpec UiStateProofs.

Section last.
  Context (t : ui_task).
  (** A part of the state that is set by some messages and left alone by the others *)
  Lemma last_message {A} (get : ui_state -> A) (P : ui_message -> Prop) (Q : A -> Prop) m ms1 ms2 u :
    ui_run t (ms1 ++ m :: ms2) (new_ui_state t) = Some u ->
    (forall v v', ui_apply t m v = Some v' -> Q (get v')) ->
    (forall m' v v', m' ∈ ms2 -> ui_apply t m' v = Some v' -> Q (get v) -> Q (get v')) -> Q (get u).
  Proof.
    intros H Hm Hother. assert (forall ms v, (forall m', m' ∈ ms -> m' ∈ ms2) -> ui_run t ms v = Some u -> Q (get v) -> Q (get u)) as Hrun.
    { induction ms as [|m' ms IH]; intros v Hs Hv HQ; simpl in Hv; [by injection Hv as <-|].
      destruct (ui_apply t m' v) as [v'|] eqn:E; simpl in Hv; [|done]. eapply IH; [|exact Hv|eapply Hother; [|exact E|done]].
      - intros m2 Hm2. apply Hs. by right.
      - apply Hs. by left. }
    revert H. generalize (new_ui_state t). induction ms1 as [|m1 ms1 IH]; intros v H; simpl in H.
    - destruct (ui_apply t m v) as [v'|] eqn:E; simpl in H; [|done]. eapply Hrun; [|exact H|by eapply Hm]. done.
    - destruct (ui_apply t m1 v) as [v'|] eqn:E; simpl in H; [|done]. by eapply IH.
  Qed.
  Lemma on_generation_rest b st tc f u u' : on_generation b st tc f u = Some u' ->
    u_solutions u' = u_solutions u /\ u_compilations u' = u_compilations u /\ u_evaluations u' = u_evaluations u /\ u_executor u' = u_executor u /\ u_booklets u' = u_booklets u /\ u_diagnostics u' = u_diagnostics u.
  Proof. unfold on_generation. destruct (u_generations u !! st) as [g|]; simpl; [|done]. destruct (g !! tc); [by intros [= <-]|]. destruct b; [done|]. by intros [= <-]. Qed.
  Lemma on_testcase_rest sol tc f u u' : on_testcase t sol tc f u = Some u' -> exists x,
    u' = set_eval sol (SolState (e_score (the_eval t sol u)) (e_subtasks (the_eval t sol u)) x) u.
  Proof.
    unfold on_testcase. destruct (e_testcases (the_eval t sol u) !! tc) as [x|]; simpl; [|done]. destruct (f x) as [x'|]; simpl; [|done]. intros [= <-]. by eexists.
  Qed.

  (** The scores of the subtasks and of the solution *)
  Definition subtask_shown (u : ui_state) (sol : path) (st : nat) : option (option f64 * option f64) := e ← u_evaluations u !! sol; e_subtasks e !! st.
  Definition task_shown (u : ui_state) (sol : path) : option (option f64) := e_score <$> u_evaluations u !! sol.
  Lemma set_eval_lookup sol e u sol' : u_evaluations (set_eval sol e u) !! sol' = if decide (sol' = sol) then Some e else u_evaluations u !! sol'.
  Proof. unfold set_eval. simpl. case_decide as H; [subst; by rewrite lookup_insert|by rewrite lookup_insert_ne]. Qed.

  Theorem C55_subtask_score ms1 ms2 st sol score normalized u :
    ui_run t (ms1 ++ MSubtaskScore st sol score normalized :: ms2) (new_ui_state t) = Some u ->
    (forall a b, MSubtaskScore st sol a b ∉ ms2) -> subtask_shown u sol st = Some (Some score, Some normalized).
  Proof.
    intros H Hn. apply (last_message (fun u => subtask_shown u sol st) (fun _ => True) (fun x => x = Some (Some score, Some normalized)) _ _ _ _ H).
    - intros v v' Hv. cbn [ui_apply] in Hv. destruct (e_subtasks (the_eval t sol v) !! st); simpl in Hv; [|done]. injection Hv as <-.
      unfold subtask_shown. rewrite set_eval_lookup, decide_True by done. simpl. by rewrite lookup_insert.
    - intros m v v' Hin Hv Hsh. unfold subtask_shown in *.
      destruct (u_evaluations v !! sol) as [e|] eqn:Ee; simpl in Hsh; [|done].
      assert (forall sol' x, e_subtasks x = e_subtasks (the_eval t sol' v) -> (u_evaluations (set_eval sol' x v) !! sol ≫= fun e => e_subtasks e !! st) = Some (Some score, Some normalized)) as Hset.
      { intros sol' x Hx. rewrite set_eval_lookup. case_decide; [|by rewrite Ee]. subst. simpl. rewrite Hx. unfold the_eval. by rewrite Ee. }
      destruct m; cbn [ui_apply] in Hv.
      all: try discriminate Hv.
      all: try (injection Hv as <-; simpl; by rewrite Ee).
      all: try (apply on_generation_rest in Hv as (_ & _ & -> & _); by rewrite Ee).
      all: try (apply on_testcase_rest in Hv as [x ->]; by apply Hset).
      + destruct (e_subtasks (the_eval t sol0 v) !! st0) as [y|] eqn:Ey; simpl in Hv; [|done]. injection Hv as <-. rewrite set_eval_lookup. case_decide; [|by rewrite Ee]. subst sol0. simpl.
        rewrite lookup_insert_ne; [unfold the_eval; by rewrite Ee|]. intros ->. by apply (Hn score0 normalized0).
      + injection Hv as <-. by apply Hset.
      + case_decide; [|done]. injection Hv as <-. simpl. by rewrite Ee.
  Qed.
  Theorem C55_task_score ms1 ms2 sol score u :
    ui_run t (ms1 ++ MTaskScore sol score :: ms2) (new_ui_state t) = Some u ->
    (forall a, MTaskScore sol a ∉ ms2) -> task_shown u sol = Some (Some score).
  Proof.
    intros H Hn. apply (last_message (fun u => task_shown u sol) (fun _ => True) (fun x => x = Some (Some score)) _ _ _ _ H).
    - intros v v' Hv. cbn [ui_apply] in Hv. injection Hv as <-. unfold task_shown. by rewrite set_eval_lookup, decide_True.
    - intros m v v' Hin Hv Hsh. unfold task_shown in *. apply fmap_Some in Hsh as (e & Ee & Hsc).
      assert (forall sol' x, e_score x = e_score (the_eval t sol' v) -> e_score <$> u_evaluations (set_eval sol' x v) !! sol = Some (Some score)) as Hset.
      { intros sol' x Hx. rewrite set_eval_lookup. case_decide; [|rewrite Ee; simpl; by rewrite Hsc]. subst. simpl. rewrite Hx. unfold the_eval. rewrite Ee. simpl. by rewrite Hsc. }
      destruct m; cbn [ui_apply] in Hv.
      all: try discriminate Hv.
      all: try (injection Hv as <-; simpl; rewrite Ee; simpl; by rewrite Hsc).
      all: try (apply on_generation_rest in Hv as (_ & _ & -> & _); rewrite Ee; simpl; by rewrite Hsc).
      all: try (apply on_testcase_rest in Hv as [x ->]; by apply Hset).
      + destruct (e_subtasks (the_eval t sol0 v) !! st) as [y|] eqn:Ey; simpl in Hv; [|done]. injection Hv as <-. by apply Hset.
      + injection Hv as <-. rewrite set_eval_lookup. case_decide; [|rewrite Ee; simpl; by rewrite Hsc]. subst sol0. exfalso. by apply (Hn score0).
      + case_decide; [|done]. injection Hv as <-. simpl. rewrite Ee. simpl. by rewrite Hsc.
  Qed.
  (** The compilations: done only if it succeeded *)
  Definition compilation_shows (s : ui_status) (c : comp_status) : Prop :=
    match s with
    | UPending => c = CPending
    | UStarted _ => c = CRunning
    | UDone r => (res_status r = Success /\ c = CDone r) \/ (res_status r <> Success /\ c = CFailed r)
    | USkipped => c = CSkipped
    end.
  Theorem C55_compilation ms1 ms2 file s u :
    ui_run t (ms1 ++ MCompilation file s :: ms2) (new_ui_state t) = Some u ->
    (forall s', MCompilation file s' ∉ ms2) -> exists c, u_compilations u !! file = Some c /\ compilation_shows s c.
  Proof.
    intros H Hn. apply (last_message (fun u => u_compilations u !! file) (fun _ => True) (fun x => exists c, x = Some c /\ compilation_shows s c) _ _ _ _ H).
    - intros v v' Hv. cbn [ui_apply] in Hv. injection Hv as <-. simpl. rewrite lookup_insert. eexists. split; [done|]. destruct s as [|w|r|]; simpl; try done.
      destruct (res_status r); simpl; auto.
    - intros m v v' Hin Hv Hsh. destruct m; cbn [ui_apply] in Hv.
      all: try discriminate Hv.
      all: try (injection Hv as <-; done).
      all: try (apply on_generation_rest in Hv as (_ & -> & _); done).
      all: try (apply on_testcase_rest in Hv as [x ->]; done).
      + injection Hv as <-. simpl. rewrite lookup_insert_ne; [done|]. intros ->. by apply (Hn s0).
      + destruct (e_subtasks (the_eval t sol v) !! st); simpl in Hv; [|done]. by injection Hv as <-.
      + case_decide; [|done]. by injection Hv as <-.
  Qed.
  (** The solutions *)
  Theorem C55_solutions ms1 ms2 l u :
    ui_run t (ms1 ++ MSolutions l :: ms2) (new_ui_state t) = Some u -> (forall l', MSolutions l' ∉ ms2) -> NoDup (map si_path l) ->
    forall path info, u_solutions u !! path = Some info <-> si_path info = path /\ info ∈ l.
  Proof.
    intros H Hn Hd. apply (last_message (fun u => u_solutions u) (fun _ => True) (fun m => forall path info, m !! path = Some info <-> si_path info = path /\ info ∈ l) _ _ _ _ H).
    - intros v v' Hv. cbn [ui_apply] in Hv. injection Hv as <-. simpl. clear -Hd.
      assert (forall (l : list sol_info) (m : gmap path sol_info), NoDup (map si_path l) -> (forall i, i ∈ l -> m !! si_path i = None) -> forall path info,
        foldl (fun m i => <[si_path i := i]> m) m l !! path = Some info <-> m !! path = Some info \/ (si_path info = path /\ info ∈ l)) as Hf.
      { clear. induction l as [|i l IH]; intros m Hd Hm path info; simpl.
        - split; [by left|]. intros [?|[_ Hin]]; [done|]. by apply elem_of_nil in Hin.
        - simpl in Hd. apply NoDup_cons in Hd as [Hi Hd]. rewrite IH; [|done|].
          + destruct (decide (path = si_path i)) as [->|Hne].
            * rewrite lookup_insert. split.
              -- intros [[= <-]|[H1 H2]]; right; [split; [done|by left]|split; [done|by right]].
              -- intros [H1|[H1 H2]]; [rewrite (Hm i) in H1 by (by left); done|]. apply elem_of_cons in H2 as [->|H2]; [by left|]. by right.
            * rewrite lookup_insert_ne by done. split; [intros [?|[? ?]]; [by left|right; split; [done|by right]]|].
              intros [?|[H1 H2]]; [by left|]. apply elem_of_cons in H2 as [->|H2]; [congruence|by right].
          + intros j Hj. rewrite lookup_insert_ne; [apply Hm; by right|]. intros E. apply Hi. rewrite E. by apply elem_of_list_fmap_1. }
      intros path info. rewrite Hf; [|done|done]. rewrite lookup_empty. split; [intros [?|?]; done|by right].
    - intros m v v' Hin Hv Hsh. destruct m; cbn [ui_apply] in Hv.
      all: try discriminate Hv.
      all: try (injection Hv as <-; done).
      all: try (apply on_generation_rest in Hv as (-> & _); done).
      all: try (apply on_testcase_rest in Hv as [x ->]; done).
      + by apply Hn in Hin.
      + destruct (e_subtasks (the_eval t sol v) !! st); simpl in Hv; [|done]. by injection Hv as <-.
      + case_decide; [|done]. by injection Hv as <-.
  Qed.
  (** The booklets and the steps of their dependencies *)
  Theorem C55_booklet ms1 ms2 name s u :
    ui_run t (ms1 ++ MBooklet name s :: ms2) (new_ui_state t) = Some u -> (forall s', MBooklet name s' ∉ ms2) ->
    exists b, u_booklets u !! name = Some b /\ bk_status b = s.
  Proof.
    intros H Hn. apply (last_message (fun u => u_booklets u !! name) (fun _ => True) (fun x => exists b, x = Some b /\ bk_status b = s) _ _ _ _ H).
    - intros v v' Hv. cbn [ui_apply] in Hv. injection Hv as <-. simpl. rewrite lookup_insert. by eexists.
    - intros m v v' Hin Hv Hsh. destruct m; cbn [ui_apply] in Hv.
      all: try discriminate Hv.
      all: try (injection Hv as <-; done).
      all: try (apply on_generation_rest in Hv as (_ & _ & _ & _ & -> & _); done).
      all: try (apply on_testcase_rest in Hv as [x ->]; done).
      + destruct (e_subtasks (the_eval t sol v) !! st); simpl in Hv; [|done]. by injection Hv as <-.
      + injection Hv as <-. simpl. rewrite lookup_insert_ne; [done|]. intros ->. by apply (Hn s0).
      + case_decide; [|done]. injection Hv as <-. simpl. destruct Hsh as (b & Hb & Hs). destruct (decide (booklet = name)) as [->|Hne].
        * rewrite lookup_insert. eexists. split; [done|]. simpl. unfold the_booklet. by rewrite Hb.
        * rewrite lookup_insert_ne by done. by exists b.
  Qed.
  Theorem C55_booklet_step ms1 ms2 booklet name step n s u :
    ui_run t (ms1 ++ MBookletDep booklet name step n s :: ms2) (new_ui_state t) = Some u -> (forall n' s', MBookletDep booklet name step n' s' ∉ ms2) ->
    exists b l, u_booklets u !! booklet = Some b /\ bk_deps b !! name = Some l /\ l !! step = Some s.
  Proof.
    intros H Hn. apply (last_message (fun u => u_booklets u !! booklet) (fun _ => True) (fun x => exists b l, x = Some b /\ bk_deps b !! name = Some l /\ l !! step = Some s) _ _ _ _ H).
    - intros v v' Hv. cbn [ui_apply] in Hv. case_decide as Hd; [|done]. injection Hv as <-. simpl. rewrite lookup_insert. eexists _, _. split; [done|]. simpl. rewrite lookup_insert. split; [done|]. by apply list_lookup_insert.
    - intros m v v' Hin Hv Hsh. destruct m; cbn [ui_apply] in Hv.
      all: try discriminate Hv.
      all: try (injection Hv as <-; done).
      all: try (apply on_generation_rest in Hv as (_ & _ & _ & _ & -> & _); done).
      all: try (apply on_testcase_rest in Hv as [x ->]; done).
      + destruct (e_subtasks (the_eval t sol v) !! st); simpl in Hv; [|done]. by injection Hv as <-.
      + injection Hv as <-. simpl. destruct Hsh as (b & l & Hb & Hl & Hs). destruct (decide (name0 = booklet)) as [->|Hne].
        * rewrite lookup_insert. eexists _, _. split; [done|]. simpl. unfold the_booklet. rewrite Hb. done.
        * rewrite lookup_insert_ne by done. by exists b, l.
      + case_decide as Hd; [|done]. injection Hv as <-. simpl. destruct Hsh as (b & l & Hb & Hl & Hs). destruct (decide (booklet0 = booklet)) as [->|Hne].
        * rewrite lookup_insert. unfold the_booklet in *. rewrite Hb in *. simpl in *. eexists _. destruct (decide (name0 = name)) as [->|Hne'].
          -- eexists. split; [done|]. simpl. rewrite lookup_insert. split; [done|]. rewrite Hl. simpl. rewrite list_lookup_insert_ne; [done|]. intros ->. by apply (Hn num_steps s0).
          -- exists l. split; [done|]. simpl. rewrite lookup_insert_ne by done. done.
        * rewrite lookup_insert_ne by done. by exists b, l.
  Qed.
End last.

(** The hypotheses are met: two compilations, a subtask score sent twice *)
Definition small_task : ui_task := UiTask {[ 0 := UiSubtask None [0] [0] ]} {[ 0 ]}.
Example C55_last_example :
  (u ← ui_run small_task ([MCompilation "a.cpp" UPending; MSubtaskScore 0 "a.cpp" f64_zero f64_zero; MTaskScore "a.cpp" f64_zero] ++
      [MCompilation "a.cpp" (UStarted 1); MSubtaskScore 0 "a.cpp" f64_one f64_one; MCompilation "b.cpp" UPending; MTaskScore "a.cpp" f64_one]) (new_ui_state small_task);
   Some (u_compilations u !! "a.cpp"%string, subtask_shown u "a.cpp" 0, task_shown u "a.cpp")) =
  Some (Some CRunning, Some (Some f64_one, Some f64_one), Some (Some f64_one)).
Proof. vm_compute. reflexivity. Qed.

Print Assumptions C55_subtask_score.
Print Assumptions C55_task_score.
Print Assumptions C55_compilation.
Print Assumptions C55_solutions.
Print Assumptions C55_booklet.
Print Assumptions C55_booklet_step.
