(** * ReportProofs: what the states have, and the tables (C89) *)
From stdpp Require Import gmap strings sorting.
From Verif Require Import ReportSpec.

(** ** The invariant of the states *)
Section inv.
  Context (t : ui_task).
  Definition full (u : ui_state) : Prop :=
    (forall sol e, u_evaluations u !! sol = Some e -> dom (e_subtasks e) = dom (ut_subtasks t) /\ dom (e_testcases e) = ut_testcases t) /\
    dom (u_generations u) = dom (ut_subtasks t).
  Lemma full_new : full (new_ui_state t).
  Proof. split; [intros sol e H; simpl in H; by rewrite lookup_empty in H|]. simpl. by rewrite dom_fmap_L. Qed.
  Lemma full_the_eval u sol : full u -> dom (e_subtasks (the_eval t sol u)) = dom (ut_subtasks t) /\ dom (e_testcases (the_eval t sol u)) = ut_testcases t.
  Proof.
    intros [H _]. unfold the_eval. destruct (u_evaluations u !! sol) as [e|] eqn:E; simpl; [by eapply H|].
    rewrite dom_fmap_L. split; [done|]. apply dom_gset_to_gmap.
  Qed.
  Lemma full_set u sol e : full u -> dom (e_subtasks e) = dom (ut_subtasks t) -> dom (e_testcases e) = ut_testcases t -> full (set_eval sol e u).
  Proof.
    intros [H1 H2] Ha Hb. split; [|done]. intros sol' e' H. unfold set_eval in H. simpl in H.
    destruct (decide (sol' = sol)) as [->|Hne]; [rewrite lookup_insert in H; by simplify_eq|rewrite lookup_insert_ne in H by done; by eapply H1].
  Qed.
  Lemma full_testcase sol tc f u u' : full u -> on_testcase t sol tc f u = Some u' -> full u'.
  Proof.
    intros Hf H. unfold on_testcase in H. destruct (e_testcases (the_eval t sol u) !! tc) as [x|] eqn:E; simpl in H; [|done].
    destruct (f x) as [x'|]; simpl in H; [|done]. simplify_eq. destruct (full_the_eval u sol Hf) as [Ha Hb]. apply full_set; [done|done|]. simpl.
    rewrite dom_insert_L, Hb. apply elem_of_dom_2 in E. rewrite Hb in E. set_solver.
  Qed.
  Lemma full_generation b st tc f u u' : full u -> on_generation b st tc f u = Some u' -> full u'.
  Proof.
    intros [H1 H2] H. unfold on_generation in H. destruct (u_generations u !! st) as [g|] eqn:E; simpl in H; [|done].
    destruct (g !! tc); [|destruct b; [done|by simplify_eq]]. simplify_eq. split; [done|]. simpl. rewrite dom_insert_L, H2.
    apply elem_of_dom_2 in E. rewrite H2 in E. set_solver.
  Qed.
  Lemma full_apply m u u' : full u -> ui_apply t m u = Some u' -> full u'.
  Proof.
    intros Hf H. destruct m; cbn [ui_apply] in H.
    all: try (injection H as <-; exact Hf).
    all: try discriminate H.
    all: try (by eapply full_generation).
    all: try (by eapply full_testcase).
    - destruct (e_subtasks (the_eval t sol u) !! st) as [x|] eqn:E; simpl in H; [|done]. simplify_eq. destruct (full_the_eval u sol Hf) as [Ha Hb].
      apply full_set; [done| |done]. simpl. rewrite dom_insert_L, Ha. apply elem_of_dom_2 in E. rewrite Ha in E. set_solver.
    - simplify_eq. destruct (full_the_eval u sol Hf) as [Ha Hb]. by apply full_set.
    - case_decide; [|done]. by simplify_eq.
  Qed.
  Lemma full_reachable u : reachable t u -> full u.
  Proof.
    intros [ms H]. revert H. generalize (new_ui_state t) full_new. induction ms as [|m ms IH]; intros u0 Hf H; simpl in H; [by simplify_eq|].
    destruct (ui_apply t m u0) as [u1|] eqn:E; simpl in H; [|done]. eapply IH; [|done]. by eapply full_apply.
  Qed.
  (** The testcases whose generation is shown: those owned by the subtask *)
  Definition gens_full (u : ui_state) : Prop :=
    forall st s, ut_subtasks t !! st = Some s -> exists g, u_generations u !! st = Some g /\ dom g = list_to_set (us_owned s).
  Lemma gens_generation b st tc f u u' : gens_full u -> on_generation b st tc f u = Some u' -> gens_full u'.
  Proof.
    intros Hf H st' s Hs. unfold on_generation in H. destruct (u_generations u !! st) as [g|] eqn:E; simpl in H; [|done].
    destruct (g !! tc) eqn:Etc; [|destruct b; [done|]; simplify_eq; by apply Hf]. simplify_eq. simpl.
    destruct (Hf st' s Hs) as (g' & Hg' & Hd). destruct (decide (st' = st)) as [->|Hne]; [|exists g'; rewrite lookup_insert_ne by done; done].
    rewrite E in Hg'. injection Hg' as <-. rewrite lookup_insert. eexists. split; [done|]. rewrite dom_insert_L, Hd. apply elem_of_dom_2 in Etc. rewrite Hd in Etc. set_solver.
  Qed.
  Lemma gens_same u u' : u_generations u' = u_generations u -> gens_full u -> gens_full u'.
  Proof. intros He H st s Hs. rewrite He. by apply H. Qed.
  Lemma gens_apply m u u' : gens_full u -> ui_apply t m u = Some u' -> gens_full u'.
  Proof.
    intros Hf H. destruct m; cbn [ui_apply] in H.
    all: try (injection H as <-; exact Hf).
    all: try discriminate H.
    all: try (by eapply gens_generation).
    all: try (unfold on_testcase in H; apply bind_Some in H as (x & _ & H); apply bind_Some in H as (y & _ & H); injection H as <-; by eapply gens_same; [|exact Hf]).
    - apply bind_Some in H as (x & _ & H). injection H as <-. by eapply gens_same; [|exact Hf].
    - case_decide; [|done]. injection H as <-. by eapply gens_same; [|exact Hf].
  Qed.
  Lemma gens_reachable u : reachable t u -> gens_full u.
  Proof.
    intros [ms H]. assert (H0 : gens_full (new_ui_state t)).
    { intros st s Hs. simpl. rewrite lookup_fmap, Hs. simpl. eexists. split; [done|]. apply dom_gset_to_gmap. }
    revert H. generalize (new_ui_state t) H0. induction ms as [|m ms IH]; intros u0 Hf H; simpl in H; [by simplify_eq|].
    apply bind_Some in H as (u1 & E & H). eapply IH; [|done]. by eapply gens_apply.
  Qed.
End inv.

(** ** [mapM] *)
Lemma mapM_some {A B} (f : A -> option B) l : (forall x, x ∈ l -> is_Some (f x)) -> is_Some (mapM f l).
Proof.
  intros H. apply mapM_is_Some. apply Forall_forall. done.
Qed.
Lemma mapM_forall2 {A B} (f : A -> option B) l k : mapM f l = Some k -> Forall2 (fun x y => f x = Some y) l k.
Proof. apply mapM_Some. Qed.
Lemma mapM_fst {A B C} (g : B -> C) (f : A -> option B) (h : A -> C) l k : mapM f l = Some k -> (forall x y, f x = Some y -> g y = h x) -> map g k = map h l.
Proof. intros H Hg. apply mapM_forall2 in H. induction H as [|x y l k Hx H IH]; simpl; [done|]. by rewrite (Hg _ _ Hx), IH. Qed.
Lemma mapM_in {A B} (f : A -> option B) l k y : mapM f l = Some k -> y ∈ k -> exists x, x ∈ l /\ f x = Some y.
Proof.
  intros H Hy. apply mapM_forall2 in H. apply elem_of_list_lookup in Hy as [i Hi]. destruct (Forall2_lookup_r _ _ _ _ _ H Hi) as (x & Hx & Hf).
  exists x. split; [by eapply elem_of_list_lookup_2|done].
Qed.
Lemma mapM_in2 {A B} (f : A -> option B) l k x : mapM f l = Some k -> x ∈ l -> exists y, y ∈ k /\ f x = Some y.
Proof.
  intros H Hy. apply mapM_forall2 in H. apply elem_of_list_lookup in Hy as [i Hi]. destruct (Forall2_lookup_l _ _ _ _ _ H Hi) as (y & Hx & Hf).
  exists y. split; [by eapply elem_of_list_lookup_2|done].
Qed.

Section tables.
  Context (t : ui_task) (path_le : relation path) `{!RelDecision path_le} (close : tc_state -> bool).
  Lemma sorted_subtasks_perm {A} (m : gmap nat A) : sorted_subtasks m ≡ₚ elements (dom m).
  Proof. apply merge_sort_Permutation. Qed.
  Lemma in_sorted {A} (m : gmap nat A) st : st ∈ sorted_subtasks m <-> is_Some (m !! st).
  Proof. rewrite sorted_subtasks_perm, elem_of_elements, elem_of_dom. done. Qed.
  Lemma sorted_dom {A B} (m : gmap nat A) (m' : gmap nat B) : dom m = dom m' -> sorted_subtasks m = sorted_subtasks m'.
  Proof. intros H. unfold sorted_subtasks. by rewrite H. Qed.
  Lemma sorted_paths_perm {A} (m : gmap path A) : sorted_paths path_le m ≡ₚ elements (dom m).
  Proof. apply merge_sort_Permutation. Qed.
  Lemma in_paths {A} (m : gmap path A) p : p ∈ sorted_paths path_le m <-> is_Some (m !! p).
  Proof. rewrite sorted_paths_perm, elem_of_elements, elem_of_dom. done. Qed.
  Lemma owned_exist st s tc : owned_once t -> ut_subtasks t !! st = Some s -> tc ∈ us_owned s -> tc ∈ ut_testcases t.
  Proof.
    unfold owned_once. intros Ho Hs Hin. apply elem_of_elements. rewrite <- Ho. apply elem_of_list_bind. exists (st, s). split; [done|]. by apply elem_of_map_to_list.
  Qed.

  (** ** The summary *)
  Lemma letters_some u sol e st : full t u -> owned_once t -> u_evaluations u !! sol = Some e -> is_Some (e_subtasks e !! st) -> is_Some (letters_cell t close e st).
  Proof.
    intros [Hf _] Ho He Hst. destruct (Hf _ _ He) as [H1 H2]. unfold letters_cell. destruct Hst as [x Hx]. rewrite Hx. cbn.
    apply elem_of_dom_2 in Hx. rewrite H1 in Hx. apply elem_of_dom in Hx as [s Hs]. rewrite Hs. cbn.
    destruct (mapM_some (fun tc => tc_st ← e_testcases e !! tc; Some (tc, testcase_letter (close tc_st) (t_status tc_st))) (us_owned s)) as [ls ->]; [|by eexists].
    intros tc Htc. pose proof (owned_exist _ _ _ Ho Hs Htc) as Hin. rewrite <- H2 in Hin. apply elem_of_dom in Hin as [y ->]. by eexists.
  Qed.
  Lemma summary_of_some u sol e : full t u -> owned_once t -> u_evaluations u !! sol = Some e -> is_Some (summary_of t close e sol).
  Proof.
    intros Hf Ho He. unfold summary_of.
    destruct (mapM_some (fun st => x ← e_subtasks e !! st; Some (st, score_cell x)) (sorted_subtasks (e_subtasks e))) as [a ->].
    { intros st Hst. apply in_sorted in Hst as [x ->]. by eexists. }
    cbn. destruct (mapM_some (letters_cell t close e) (sorted_subtasks (e_subtasks e))) as [b ->]; [|by eexists].
    intros st Hst. apply in_sorted in Hst. by eapply letters_some.
  Qed.
  Lemma summary_some u : full t u -> owned_once t -> is_Some (summary_table t path_le close u).
  Proof.
    intros Hf Ho. unfold summary_table.
    destruct (mapM_some (fun sol => e ← u_evaluations u !! sol; summary_of t close e sol) (sorted_paths path_le (u_evaluations u))) as [a ->]; [|by eexists].
    intros sol Hsol. apply in_paths in Hsol as [e He]. rewrite He. cbn. by eapply summary_of_some.
  Qed.
  Lemma summary_rows u hd rows : summary_table t path_le close u = Some (hd, rows) ->
    hd = sorted_subtasks (ut_subtasks t) /\ map sr_solution rows = sorted_paths path_le (u_evaluations u) /\
    Forall (fun r => exists e, u_evaluations u !! sr_solution r = Some e /\ summary_of t close e (sr_solution r) = Some r) rows.
  Proof.
    unfold summary_table. destruct (mapM _ _) as [rs|] eqn:E; [|done]. cbn. intros [= <- <-]. split; [done|].
    assert (Hsol : forall sol r, (e ← u_evaluations u !! sol; summary_of t close e sol) = Some r -> sr_solution r = sol).
    { intros sol r H. destruct (u_evaluations u !! sol) as [e|]; cbn in H; [|done]. unfold summary_of in H.
      apply bind_Some in H as (a & _ & H). apply bind_Some in H as (b & _ & H). by injection H as <-. }
    split.
    - rewrite (mapM_fst sr_solution _ (fun x => x) _ _ E) by done. apply map_id.
    - apply Forall_forall. intros r Hr. apply mapM_in with (y := r) in E as (sol & Hs & Hf); [|done].
      pose proof (Hsol _ _ Hf) as <-. destruct (u_evaluations u !! sr_solution r) as [e|]; [|done]. cbn in Hf. eauto.
  Qed.
  Lemma summary_row_ok e sol r : summary_of t close e sol = Some r ->
    sr_score r = e_score e /\
    Forall2 (fun st c => exists x, e_subtasks e !! st = Some x /\ c = (st, score_cell x)) (sorted_subtasks (e_subtasks e)) (sr_scores r) /\
    Forall2 (fun st c => letters_cell t close e st = Some c) (sorted_subtasks (e_subtasks e)) (sr_letters r).
  Proof.
    unfold summary_of. intros Hr. apply bind_Some in Hr as (a & Ea & Hr). apply bind_Some in Hr as (b & Eb & Hr).
    injection Hr as <-. cbn. split; [done|]. apply mapM_forall2 in Ea, Eb. split; [|done].
    eapply Forall2_impl; [exact Ea|]. intros st c H. cbn in H. destruct (e_subtasks e !! st) as [x|]; cbn in H; [|done]. simplify_eq. eauto.
  Qed.
  Lemma letters_ok e st c : letters_cell t close e st = Some c ->
    exists x s, e_subtasks e !! st = Some x /\ ut_subtasks t !! st = Some s /\ c.1 = (st, score_color (default f64_zero x.2)) /\
      Forall2 (fun tc l => exists y, e_testcases e !! tc = Some y /\ l = (tc, testcase_letter (close y) (t_status y))) (us_owned s) c.2.
  Proof.
    unfold letters_cell. destruct (e_subtasks e !! st) as [x|]; cbn; [|done]. destruct (ut_subtasks t !! st) as [s|]; cbn; [|done].
    destruct (mapM _ _) as [ls|] eqn:E; cbn; [|done]. intros [= <-]. exists x, s. split_and!; [done..|]. cbn.
    apply mapM_forall2 in E. eapply Forall2_impl; [exact E|]. intros tc l H. cbn in H. destruct (e_testcases e !! tc) as [y|]; cbn in H; [|done]. simplify_eq. eauto.
  Qed.
  (** Each testcase once *)
  Lemma owned_sorted : owned_once t -> (sorted_subtasks (ut_subtasks t) ≫= fun st => match ut_subtasks t !! st with Some s => us_owned s | None => [] end) ≡ₚ elements (ut_testcases t).
  Proof.
    unfold owned_once. intros Ho. rewrite <- Ho. rewrite sorted_subtasks_perm.
    assert (Hd : elements (dom (ut_subtasks t)) ≡ₚ (map_to_list (ut_subtasks t)).*1).
    { apply NoDup_Permutation; [apply NoDup_elements|apply NoDup_fst_map_to_list|]. intros st. rewrite elem_of_elements, elem_of_dom. split.
      - intros [s Hs]. apply elem_of_list_fmap. exists (st, s). split; [done|]. by apply elem_of_map_to_list.
      - intros H. apply elem_of_list_fmap in H as ([st' s] & -> & H). apply elem_of_map_to_list in H. by eexists. }
    rewrite Hd. assert (Hl : Forall (fun p => ut_subtasks t !! p.1 = Some p.2) (map_to_list (ut_subtasks t))).
    { apply Forall_forall. intros [st s] H. by apply elem_of_map_to_list in H. }
    clear Ho Hd. induction Hl as [|[st s] l H Hl IH]; [done|]. rewrite fmap_cons, !bind_cons. cbn [fst snd] in *. rewrite H. apply Permutation_app_head, IH.
  Qed.
  Lemma row_testcases u sol e r : full t u -> owned_once t -> u_evaluations u !! sol = Some e -> summary_of t close e sol = Some r ->
    (sr_letters r ≫= fun c => map fst c.2) ≡ₚ elements (ut_testcases t).
  Proof.
    intros [Hf _] Ho He Hr. destruct (Hf _ _ He) as [H1 _]. apply summary_row_ok in Hr as (_ & _ & H). rewrite (sorted_dom _ _ H1) in H.
    rewrite <- (owned_sorted Ho). induction H as [|st c l k Hc H IH]; [done|]. rewrite !bind_cons. rewrite IH. apply letters_ok in Hc as (x & s & _ & -> & _ & Hl).
    replace (map fst c.2) with (us_owned s); [done|]. clear -Hl. induction Hl as [|tc l0 a b (y & _ & ->) H IH]; [done|]. simpl. by f_equal.
  Qed.

  (** ** The evaluations *)
  Lemma evaluation_some u sol e : full t u -> owned_once t -> u_evaluations u !! sol = Some e -> is_Some (evaluation_of t sol e).
  Proof.
    intros [Hf _] Ho He. destruct (Hf _ _ He) as [H1 H2]. unfold evaluation_of.
    match goal with |- context [mapM ?f ?l] => destruct (mapM_some f l) as [a Ha] end; [|rewrite Ha; by eexists].
    intros st Hst. apply in_sorted in Hst as [x Hx]. rewrite Hx. cbn. apply elem_of_dom_2 in Hx. rewrite H1 in Hx. apply elem_of_dom in Hx as [s Hs]. rewrite Hs. cbn.
    match goal with |- context [mapM ?f ?l] => destruct (mapM_some f l) as [a Ha] end; [|rewrite Ha; by eexists].
    intros tc Htc. pose proof (owned_exist _ _ _ Ho Hs Htc) as Hin. rewrite <- H2 in Hin. apply elem_of_dom in Hin as [y ->]. by eexists.
  Qed.
  Lemma evaluations_some u : full t u -> owned_once t -> is_Some (evaluations_table t path_le u).
  Proof.
    intros Hf Ho. unfold evaluations_table. apply mapM_some. intros sol Hsol. apply in_paths in Hsol as [e He]. rewrite He. cbn. by eapply evaluation_some.
  Qed.
  Lemma generations_some u : full t u -> is_Some (generations_table t u).
  Proof.
    intros [_ Hf]. unfold generations_table. apply mapM_some. intros st Hst. apply in_sorted in Hst as [g Hg]. rewrite Hg. cbn.
    apply elem_of_dom_2 in Hg. rewrite Hf in Hg. apply elem_of_dom in Hg as [s ->]. cbn.
    match goal with |- context [mapM ?f ?l] => destruct (mapM_some f l) as [a Ha] end; [|rewrite Ha; by eexists].
    intros tc Htc. apply in_sorted in Htc as [y ->]. by eexists.
  Qed.
End tables.
