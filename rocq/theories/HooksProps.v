(** * HooksProps: C78, which sanity checks are run *)
From Verif Require Import FindProofs.
From Verif Require Export HooksModel HooksSpec.
From Coq Require Import Ascii String.
From stdpp Require Import base list sorting strings.
Local Open Scope string_scope.
Local Open Scope list_scope.

Global Instance str_le_trans : Transitive str_le := name_le_trans.
Global Instance str_le_total : Total str_le := name_le_total.
Lemma enabled_spec skip l c : c ∈ enabled skip l <-> c ∈ l /\ ~ skipped skip c.
Proof.
  unfold enabled, skipped. rewrite elem_of_list_In, filter_In, <- elem_of_list_In, andb_true_iff, !negb_true_iff, !bool_decide_eq_false. tauto.
Qed.
Lemma enabled_sublist skip l : enabled skip l `sublist_of` l.
Proof. unfold enabled. induction l as [|c l IH]; [constructor|]. cbn [List.filter]. destruct (_ && _); by constructor. Qed.
Lemma sublist_in {A} (l m : list A) x : l `sublist_of` m -> x ∈ l -> x ∈ m.
Proof. intros H. induction H as [|y l m H IH|y l m H IH]; [done| |]; rewrite ?elem_of_cons; tauto. Qed.
Lemma enabled_nil l : enabled [] l = l.
Proof. unfold enabled. induction l as [|c l IH]; [done|]. cbn [List.filter]. rewrite !bool_decide_eq_false_2 by apply not_elem_of_nil. cbn. by rewrite IH. Qed.

(** The checks that run are the registered ones that the user did not ask to skip, in the order of the registration *)
Theorem C78_skip skip l : enabled skip l `sublist_of` l /\ forall c, c ∈ enabled skip l <-> c ∈ l /\ ~ skipped skip c.
Proof. split; [apply enabled_sublist|]. apply enabled_spec. Qed.

(** Each check has its own name, also between IOI and Terry tasks, and no check is named as a category *)
Theorem C78_names : NoDup (map ck_name (ioi_checks ++ terry_checks)) /\ (forall c k, c ∈ ioi_checks ++ terry_checks -> ck_name c <> as_str k) /\
  (forall a b, as_str a = as_str b -> a = b).
Proof.
  split; [apply (bool_decide_unpack _); vm_compute; exact Logic.I|]. split.
  - assert (Forall (fun c => Forall (fun k => ck_name c <> as_str k) categories) (ioi_checks ++ terry_checks)) as H
      by (apply (bool_decide_unpack _); vm_compute; exact Logic.I).
    intros c k Hc. rewrite Forall_forall in H. specialize (H c Hc). rewrite Forall_forall in H. apply H.
    destruct k; apply (bool_decide_unpack _); vm_compute; exact Logic.I.
  - by intros [] [].
Qed.
(** So one word skips exactly the check with that name, or exactly the checks of that category; another word skips nothing *)
Theorem C78_one_word w l : l ≡ₚ ioi_checks \/ l ≡ₚ terry_checks ->
  (forall c, c ∈ l -> ck_name c = w -> forall c', c' ∈ l -> (c' ∈ enabled [w] l <-> c' <> c)) /\
  (forall k, as_str k = w -> forall c', c' ∈ l -> (c' ∈ enabled [w] l <-> ck_category c' <> k)) /\
  ((forall c, c ∈ l -> ck_name c <> w) -> (forall k, as_str k <> w) -> enabled [w] l = l).
Proof.
  intros Hl. destruct C78_names as (Hn & Hk & Hi).
  assert (forall c, c ∈ l -> c ∈ ioi_checks ++ terry_checks) as Hin.
  { intros c Hc. apply elem_of_app. destruct Hl as [Hl|Hl]; rewrite Hl in Hc; auto. }
  assert (forall c c', c ∈ l -> c' ∈ l -> ck_name c = ck_name c' -> c = c') as Hu.
  { intros c c' [i Hc]%Hin%elem_of_list_lookup [j Hc']%Hin%elem_of_list_lookup E.
    assert (i = j) as ->; [|congruence]. eapply NoDup_lookup; [exact Hn|..]; rewrite list_lookup_fmap; [by rewrite Hc|by rewrite Hc', E]. }
  split_and!.
  - intros c Hc <- c' Hc'. rewrite enabled_spec. unfold skipped. rewrite !elem_of_list_singleton. split.
    + intros [_ H] ->. tauto.
    + intros H. split; [done|]. intros [E|E]; [by apply H, Hu|]. by apply (Hk c (ck_category c') (Hin c Hc)).
  - intros k <- c' Hc'. rewrite enabled_spec. unfold skipped. rewrite !elem_of_list_singleton. split.
    + intros [_ H] E. rewrite E in H. tauto.
    + intros H. split; [done|]. intros [E|E]; [by apply (Hk c' k (Hin c' Hc'))|]. by apply H, Hi.
  - intros H1 H2. unfold enabled. clear -H1 H2. induction l as [|c l IH]; [done|]. cbn [List.filter].
    rewrite !bool_decide_eq_false_2.
    + cbn. f_equal. apply IH. intros c' Hc'. apply H1. by right.
    + rewrite elem_of_list_singleton. apply H2.
    + rewrite elem_of_list_singleton. apply H1. left.
Qed.
(** find-bad-case, whatever the task is, runs no check *)
Theorem C78_bad_case ioi terry l : l = ioi \/ l = terry -> enabled (bad_case_skip ioi terry) l = [].
Proof.
  intros Hl. destruct (enabled _ l) as [|c r] eqn:E; [done|]. exfalso.
  assert (c ∈ enabled (bad_case_skip ioi terry) l) as [Hc Hs]%enabled_spec by (rewrite E; left).
  apply Hs. left. unfold bad_case_skip, all_checks. rewrite !enabled_nil, map_app, !map_map. cbn [fst].
  apply elem_of_app. destruct Hl as [->| ->]; [left|right]; apply elem_of_list_fmap; by exists c.
Qed.

(** ** The help of -W *)
(** The help lists the categories in alphabetical order, each with all its checks, sorted: every registered check is there once, in its category only *)
Theorem C78_help ioi terry : ioi ≡ₚ ioi_checks -> terry ≡ₚ terry_checks ->
  StronglySorted str_le (map (fun g => as_str (fst g)) (help_groups ioi terry)) /\ NoDup (map fst (help_groups ioi terry)) /\
  (forall k names, (k, names) ∈ help_groups ioi terry -> StronglySorted str_le names /\ NoDup names) /\
  (forall k n, (exists names, (k, names) ∈ help_groups ioi terry /\ n ∈ names) <-> Check n k ∈ ioi_checks ++ terry_checks).
Proof.
  intros Hi Ht.
  assert (map fst (help_groups ioi terry) `sublist_of` categories) as Hsub.
  { unfold help_groups. generalize (all_checks ioi terry). intros l. induction categories as [|c cs IH]; [constructor|].
    cbn [omap list_omap]. destruct (map fst (List.filter _ l)); cbn; by constructor. }
  assert (forall k n, (n, k) ∈ all_checks ioi terry <-> Check n k ∈ ioi_checks ++ terry_checks) as Hall.
  { intros k n. assert (forall c, c ∈ ioi ++ terry <-> c ∈ ioi_checks ++ terry_checks) as Hp by (intros c; by rewrite Hi, Ht).
    unfold all_checks. rewrite !enabled_nil, <- map_app, elem_of_list_fmap. split.
    - intros ([n' k'] & [= -> ->] & H). by apply Hp.
    - intros H. exists (Check n k). split; [done|]. by apply Hp. }
  assert (NoDup (map fst (all_checks ioi terry))) as Hnd.
  { unfold all_checks. rewrite !enabled_nil, map_app, !map_map. cbn [fst]. rewrite Hi, Ht, <- map_app. apply C78_names. }
  assert (forall k, NoDup (map fst (List.filter (fun x => bool_decide (x.2 = k)) (all_checks ioi terry)))) as Hnk.
  { intros k. revert Hnd. generalize (all_checks ioi terry). intros l. induction l as [|x l IH]; intros H; [constructor|].
    cbn [List.filter]. cbn [map] in H. apply NoDup_cons in H as [H1 H2]. destruct (bool_decide _); [|auto]. cbn [map].
    apply NoDup_cons. split; [|auto]. intros Hx. apply H1. apply elem_of_list_fmap in Hx as (y & E & Hy). apply elem_of_list_fmap. exists y.
    split; [done|]. apply elem_of_list_In in Hy. apply filter_In in Hy as [Hy _]. by apply elem_of_list_In. }
  split_and!.
  - assert (forall l m, l `sublist_of` m -> StronglySorted (fun a b => str_le (as_str a) (as_str b)) m -> StronglySorted (fun a b => str_le (as_str a) (as_str b)) l) as Hss.
    { intros l m H. induction H as [|x l m H IH|x l m H IH]; intros Hm; [constructor| |]; apply StronglySorted_inv in Hm as [H1 H2]; [|by apply IH].
      constructor; [by apply IH|]. rewrite Forall_forall in H2 |- *. intros y Hy. apply H2. by eapply sublist_in. }
    assert (StronglySorted (fun a b => str_le (as_str a) (as_str b)) (map fst (help_groups ioi terry))) as H.
    { apply (Hss _ categories); [done|]. repeat constructor. }
    rewrite <- (map_map fst as_str). revert H. generalize (map fst (help_groups ioi terry)). intros l H.
    induction H as [|x l H IH Hx]; [constructor|]. cbn [map]. constructor; [done|]. by apply Forall_fmap.
  - assert (NoDup categories) as Hc by (apply (bool_decide_unpack _); vm_compute; exact Logic.I). clear -Hsub Hc. revert Hc Hsub. generalize (map fst (help_groups ioi terry)) categories. intros l m Hc H. induction H as [|x l m H IH|x l m H IH]; [constructor|apply NoDup_cons in Hc as [H1 H2]; constructor; [intros ?; apply H1; by eapply sublist_in|auto]|apply NoDup_cons in Hc as [H1 H2]; auto].
  - intros k names H. unfold help_groups in H. apply elem_of_list_omap in H as (k' & _ & H).
    destruct (map fst (List.filter _ _)) as [|y ys] eqn:E; [done|]. injection H as <- <-. split; [apply (StronglySorted_merge_sort str_le)|].
    rewrite merge_sort_Permutation. rewrite <- E. apply Hnk.
  - intros k n. rewrite <- Hall. unfold help_groups. split.
    + intros (names & H & Hn). apply elem_of_list_omap in H as (k' & _ & H).
      destruct (map fst (List.filter _ _)) as [|y ys] eqn:E; [done|]. injection H as <- <-. rewrite merge_sort_Permutation, <- E in Hn.
      apply elem_of_list_fmap in Hn as ([n' k2] & -> & Hn). apply elem_of_list_In, filter_In in Hn as [Hn Hk]. apply bool_decide_eq_true in Hk. cbn in Hk. subst k2.
      by apply elem_of_list_In.
    + intros H.
      assert (n ∈ map fst (List.filter (fun x => bool_decide (x.2 = k)) (all_checks ioi terry))) as Hn.
      { apply elem_of_list_fmap. exists (n, k). split; [done|]. apply elem_of_list_In, filter_In. split; [by apply elem_of_list_In|]. by apply bool_decide_eq_true. }
      exists (merge_sort str_le (map fst (List.filter (fun x => bool_decide (x.2 = k)) (all_checks ioi terry)))). split.
      * apply elem_of_list_omap. exists k. split; [by destruct k; apply (bool_decide_unpack _); vm_compute|].
        destruct (map fst (List.filter _ _)) eqn:E; [by apply elem_of_nil in Hn|]. done.
      * by rewrite merge_sort_Permutation.
Qed.

(** ** Running them *)
Section run.
  Context {St Er Dg : Type} (hook : string -> St -> St * option Er) (add : Dg -> St -> St * bool) (failed : string -> Er -> Dg).
  (** As long as the UI takes the messages every enabled check is run once, one after the other; a check that fails becomes a warning with its name and its error, and
      the ones that follow are run as if nothing had happened *)
  Theorem C78_run l s : (forall d s, (add d s).2 = true) ->
    exists s' said, run_hooks hook add failed l s = (s', true) /\ all_run hook add failed (map ck_name l) s s' said.
  Proof.
    intros Ha. revert s. induction l as [|c l IH]; intros s; [exists s, []; split; [done|constructor]|].
    cbn [run_hooks map]. destruct (hook (ck_name c) s) as [s1 [e|]] eqn:E.
    - specialize (Ha (failed (ck_name c) e) s1). destruct (add _ s1) as [s2 b] eqn:Ea. cbn in Ha. subst b.
      destruct (IH s2) as (s' & said & H1 & H2). exists s', (failed (ck_name c) e :: said). split; [done|]. by eapply run_failed.
    - destruct (IH s1) as (s' & said & H1 & H2). exists s', said. split; [done|]. by eapply run_fine.
  Qed.
  (** It ends with an error only if the UI did not take the warning about a check that failed *)
  Theorem C78_run_error l s s' : run_hooks hook add failed l s = (s', false) ->
    exists pre c post s1 s2 e said, l = pre ++ c :: post /\ all_run hook add failed (map ck_name pre) s s1 said /\
      hook (ck_name c) s1 = (s2, Some e) /\ add (failed (ck_name c) e) s2 = (s', false).
  Proof.
    revert s. induction l as [|c l IH]; intros s; [done|]. cbn [run_hooks].
    destruct (hook (ck_name c) s) as [s1 [e|]] eqn:E.
    - destruct (add _ s1) as [s2 b] eqn:Ea. destruct b.
      + intros (pre & c' & post & s3 & s4 & e' & said & -> & H1 & H2 & H3)%IH. exists (c :: pre), c', post, s3, s4, e', (failed (ck_name c) e :: said).
        split_and!; try done. by eapply run_failed.
      + intros [= ->]. exists [], c, l, s, s1, e, []. split_and!; try done. constructor.
    - intros (pre & c' & post & s3 & s4 & e' & said & -> & H1 & H2 & H3)%IH. exists (c :: pre), c', post, s3, s4, e', said.
      split_and!; try done. by eapply run_fine.
  Qed.
End run.
(** What the checks report does not depend on the order and on the other checks, when a check only adds diagnostics: the diagnostics of a run are those of each enabled check
    (and its failure), and the others are not there *)
Theorem C78_reports {Dg} (rep : string -> list Dg * option string) (warn : string -> Dg) skip l d0 :
  let hook n (s : list Dg) := (s ++ (rep n).1, (rep n).2) in
  let r := run_hooks hook (fun d s => (s ++ [d], true)) (fun n e => warn (failed_message n e)) (enabled skip l) d0 in
  r.2 = true /\ forall d, d ∈ r.1 <-> d ∈ d0 \/ exists c, c ∈ l /\ ~ skipped skip c /\
    (d ∈ (rep (ck_name c)).1 \/ exists e, (rep (ck_name c)).2 = Some e /\ d = warn ("Sanity check " +:+ ck_name c +:+ " failed: " +:+ e)).
Proof.
  cbn zeta. assert (forall d, (exists c, c ∈ l /\ ~ skipped skip c /\ (d ∈ (rep (ck_name c)).1 \/ exists e, (rep (ck_name c)).2 = Some e /\ d = warn ("Sanity check " +:+ ck_name c +:+ " failed: " +:+ e))) <->
    exists c, c ∈ enabled skip l /\ (d ∈ (rep (ck_name c)).1 \/ exists e, (rep (ck_name c)).2 = Some e /\ d = warn ("Sanity check " +:+ ck_name c +:+ " failed: " +:+ e))) as Heq.
  { intros d. split; intros (c & Hc); exists c; rewrite enabled_spec in *; tauto. }
  setoid_rewrite Heq. clear Heq. generalize (enabled skip l). clear skip l. intros l. revert d0.
  induction l as [|c l IH]; intros d0.
  - cbn. split; [done|]. intros d. split; [by left|]. intros [?|(c & H & _)]; [done|]. by apply elem_of_nil in H.
  - cbn [run_hooks]. destruct (rep (ck_name c)) as [ds [e|]] eqn:E; cbn [fst snd].
    + destruct (IH ((d0 ++ ds) ++ [warn (failed_message (ck_name c) e)])) as [H1 H2]. split; [done|]. intros d. rewrite H2, !elem_of_app, elem_of_list_singleton. split.
      * intros [[[?|Hd]| ->]|(c' & Hc & H)]; [by left|..].
        -- right. exists c. split; [left|]. rewrite E. by left.
        -- right. exists c. split; [left|]. rewrite E. right. by exists e.
        -- right. exists c'. split; [by right|done].
      * intros [?|(c' & Hc & H)]; [tauto|]. apply elem_of_cons in Hc as [->|Hc]; [|right; by exists c'].
        rewrite E in H. cbn [fst snd] in H. destruct H as [H|(e' & [= <-] & ->)]; [tauto|]. left. right. done.
    + destruct (IH (d0 ++ ds)) as [H1 H2]. split; [done|]. intros d. rewrite H2, !elem_of_app. split.
      * intros [[?|Hd]|(c' & Hc & H)]; [by left|..]; right; [exists c|exists c']; (split; [by constructor|]); [|done]. rewrite E. by left.
      * intros [?|(c' & Hc & H)]; [tauto|]. apply elem_of_cons in Hc as [->|Hc]; [|right; by exists c'].
        rewrite E in H. cbn [fst snd] in H. destruct H as [H|(e' & [=] & _)]. tauto.
Qed.

(** ** Examples *)
(** Two words: a check and a category *)
Example C78_ex_skip : map ck_name (enabled ["EmptyTitle"; "Attachments"; "nothing"] ioi_checks) =
  ["FuzzCheckerWithJunkOutput"; "IOEndWithNewLine"; "MissingSubtaskNames"; "InvalidSubtaskName"; "AllOutputsEqual"; "SolGraders"; "SolTemplateSymlink"; "SolutionsWithNoChecks";
   "StatementSubtasks"; "StatementValid"; "StatementCompiled"; "StatementGit"; "TaskMaxScore"; "BrokenSymlinks"; "NoBitsStdCpp"; "SubtaskDependencies"; "DeprecatedDescriptionInSubtask"].
Proof. reflexivity. Qed.
Example C78_ex_help : help_groups (rev ioi_checks) terry_checks !! 1 = Some (CChecker, ["FuzzChecker"; "FuzzCheckerWithJunkOutput"]).
Proof. vm_compute. reflexivity. Qed.
(** The second of three checks fails, the third one runs all the same *)
Example C78_ex_run : run_hooks (fun n s => if bool_decide (n = "NoBitsStdCpp") then (s ++ ["one"], Some "no file") else (s ++ [n], None)) (fun d s => (s ++ [d], true)) failed_message
  (enabled ["Attachments"; "Checker"; "Io"; "Solutions"; "Statement"; "TaskMaxScore"; "SubtaskDependencies"; "EmptyTitle"] ioi_checks) [] =
  (["BrokenSymlinks"; "one"; "Sanity check NoBitsStdCpp failed: no file"; "DeprecatedDescriptionInSubtask"], true).
Proof. reflexivity. Qed.
(** A word is compared as it is written: another case skips nothing *)
Theorem C78_case_refuted : enabled ["emptytitle"; "attachments"] ioi_checks = ioi_checks.
Proof. reflexivity. Qed.

Print Assumptions C78_skip.
Print Assumptions C78_names.
Print Assumptions C78_one_word.
Print Assumptions C78_bad_case.
Print Assumptions C78_help.
Print Assumptions C78_run.
Print Assumptions C78_run_error.
Print Assumptions C78_reports.
