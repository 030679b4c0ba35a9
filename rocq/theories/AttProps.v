(** * AttProps: C79, the samples of att/ *)
From Verif Require Export AttModel AttSpec FindSpec LangSpec.
From Verif Require Import AttProofs AttProofs2 FindProofs FindProofs2 FindProofs3 FindProps LangProofs LangProofs2 LangProofs3 BuildProofs.
From Coq Require Import Ascii String NArith.
From stdpp Require Import base list sorting gmap.
Local Open Scope nat_scope.

Lemma get_sample_files_eq ord d task : good_tree (ad_tree d) -> ordinary task ->
  get_sample_files ord d task =
  let '(ps, ds, rest) := pair_loop task (ord (map_to_list (the_group d task "input"))) (the_group d task "output") in
  (ps, duplicates task true (the_group d task "input") ++ duplicates task false (the_group d task "output") ++ ds ++
       map (fun x => ANoInput (path_of task (hd (FPath false []) (snd x)))) (ord (map_to_list rest))).
Proof. intros Hg Ho. unfold get_sample_files. by rewrite (files_input d task Hg Ho), (files_output d task Hg Ho). Qed.
Lemma ord_keys (ord : list (N * list fpath) -> list (N * list fpath)) m : (forall l, ord l ≡ₚ l) -> NoDup (map fst (ord (map_to_list m))).
Proof. intros H. rewrite (fmap_Permutation fst _ _ (H _)). apply NoDup_fst_map_to_list. Qed.
Lemma ord_elem (ord : list (N * list fpath) -> list (N * list fpath)) m k fs : (forall l, ord l ≡ₚ l) -> (k, fs) ∈ ord (map_to_list m) <-> m !! k = Some fs.
Proof. intros H. rewrite (H _). apply elem_of_map_to_list. Qed.

(** ** The pairs *)
(** The samples that are checked: for each number with an input and an output in att/, the first input and the first output with that number; an input is in one pair only *)
Theorem C79_pairs ord d task : good_tree (ad_tree d) -> ordinary task -> (forall l, ord l ≡ₚ l) ->
  NoDup (map fst (get_sample_files ord d task).1) /\
  forall a b, (a, b) ∈ (get_sample_files ord d task).1 <->
    exists k n m, first_sample d task "input" k n /\ first_sample d task "output" k m /\ a = att task n /\ b = att task m.
Proof.
  intros Hg Ho Hp. rewrite (get_sample_files_eq ord d task Hg Ho).
  destruct (pair_loop task _ _) as [[ps ds] rest] eqn:E. cbn [fst].
  destruct (pair_loop_spec _ _ _ _ _ _ (ord_keys ord _ Hp) E) as (H1 & _ & _). split.
  - eapply pair_loop_NoDup; [|exact E].
    rewrite (fmap_Permutation (fun x : N * list fpath => hd (FPath false []) x.2) _ _ (Hp _)).
    apply NoDup_fmap_2_strong; [|apply NoDup_map_to_list]. intros [k fs] [k' fs'] Hk%elem_of_map_to_list Hk'%elem_of_map_to_list Eh. cbn [snd] in Eh.
    destruct (proj1 (first_group d task "input" k (hd (FPath false []) fs) Hg)) as (n & [(_ & _ & Hn) _] & En); [by exists fs|].
    destruct (proj1 (first_group d task "input" k' (hd (FPath false []) fs') Hg)) as (n' & [(He' & _ & Hn') _] & En'); [by exists fs'|].
    assert (n = n') as <- by (apply (att_inj task); congruence).
    assert (k = k') as <-. { apply (att_number d task n k Hg He') in Hn. apply (att_number d task n k' Hg He') in Hn'. congruence. }
    congruence.
  - intros a b. rewrite H1. split.
    + intros (k & fs & os & Hk%(ord_elem ord) & Hos & -> & ->); [|done].
      destruct (proj1 (first_group d task "input" k (hd (FPath false []) fs) Hg)) as (n & Hn & En); [by exists fs|].
      destruct (proj1 (first_group d task "output" k (hd (FPath false []) os) Hg)) as (m & Hm & Em); [by exists os|].
      exists k, n, m. split_and!; try done.
    + intros (k & n & m & Hn & Hm & -> & ->).
      destruct (proj2 (first_group d task "input" k (att task n) Hg)) as (fs & Hfs & En); [by exists n|].
      destruct (proj2 (first_group d task "output" k (att task m) Hg)) as (os & Hos & Em); [by exists m|].
      exists k, fs, os. split_and!; try done. by apply (ord_elem ord).
Qed.
(** What is reported: the numbers that more than one input (or output) has, with the files; the first input of a number without an output, and the converse; nothing else *)
Theorem C79_reported ord d task : good_tree (ad_tree d) -> ordinary task -> (forall l, ord l ≡ₚ l) ->
  forall x, x ∈ (get_sample_files ord d task).2 <->
    (exists w k l, w ∈ ["input"; "output"] /\ sample_files d task w k l /\ 2 <= length l /\ x = ADuplicate (bool_decide (w = "input")) k (map att_rel l)) \/
    (exists k n, first_sample d task "input" k n /\ (forall m, ~ sample_file d task "output" k m) /\ x = ANoOutput (att_rel n)) \/
    (exists k n, first_sample d task "output" k n /\ (forall m, ~ sample_file d task "input" k m) /\ x = ANoInput (att_rel n)).
Proof.
  intros Hg Ho Hp x. rewrite (get_sample_files_eq ord d task Hg Ho).
  destruct (pair_loop task _ _) as [[ps ds] rest] eqn:E. cbn [snd].
  destruct (pair_loop_spec _ _ _ _ _ _ (ord_keys ord _ Hp) E) as (_ & H2 & H3).
  assert (forall w input, (exists k fs, the_group d task w !! k = Some fs /\ length fs <> 1 /\ x = ADuplicate input k (map (path_of task) fs)) <->
    exists k l, sample_files d task w k l /\ 2 <= length l /\ x = ADuplicate input k (map att_rel l)) as Hdup.
  { intros w input. split.
    - intros (k & fs & H & Hl & ->). apply group_Some in H as (l & Hc & Hn & ->); [|done]. exists k, l. split_and!; [done| |].
      + rewrite map_length in Hl. destruct l as [|? [|? ?]]; cbn in *; [done|done|lia].
      + rewrite map_map. f_equal. apply map_ext. intros n. apply path_of_att.
    - intros (k & l & Hc & Hl & ->). exists k, (map (att task) l). split_and!.
      + apply group_Some; [done|]. exists l. split_and!; [done| |done]. intros ->. cbn in Hl. lia.
      + rewrite map_length. lia.
      + rewrite map_map. f_equal. apply map_ext. intros n. symmetry. apply path_of_att. }
  rewrite !elem_of_app, !duplicates_spec, H2, !Hdup, elem_of_list_fmap. split.
  - intros [(k & l & H & Hl & ->)|[(k & l & H & Hl & ->)|[(k & fs & Hk & Hno & ->)|([k os] & -> & Hk)]]].
    + left. exists "input", k, l. split_and!; try done. set_solver.
    + left. exists "output", k, l. split_and!; try done. set_solver.
    + right. left. apply (ord_elem ord) in Hk; [|done]. destruct (proj1 (first_group d task "input" k (hd (FPath false []) fs) Hg)) as (n & Hn & En); [by exists fs|].
      exists k, n. split_and!; [done| |by rewrite En, path_of_att]. by apply (group_None d task "output" k Hg).
    + right. right. apply (ord_elem ord) in Hk; [|done]. apply H3 in Hk as [Hos Hk]. cbn [snd].
      destruct (proj1 (first_group d task "output" k (hd (FPath false []) os) Hg)) as (n & Hn & En); [by exists os|].
      exists k, n. split_and!; [done| |by rewrite En, path_of_att]. apply (group_None d task "input" k Hg).
      destruct (the_group d task "input" !! k) as [fs|] eqn:Ei; [|done]. exfalso. apply Hk. apply elem_of_list_fmap. exists (k, fs). split; [done|]. by apply (ord_elem ord).
  - intros [(w & k & l & Hw & H & Hl & ->)|[(k & n & Hn & Hno & ->)|(k & n & Hn & Hno & ->)]].
    + apply elem_of_cons in Hw as [->|Hw%elem_of_list_singleton]; [left|subst w; right; left]; by exists k, l.
    + right. right. left. destruct (proj2 (first_group d task "input" k (att task n) Hg)) as (fs & Hfs & En); [by exists n|].
      exists k, fs. split_and!; [by apply (ord_elem ord)| |by rewrite <- En, path_of_att]. by apply group_None.
    + right. right. right. destruct (proj2 (first_group d task "output" k (att task n) Hg)) as (os & Hos & En); [by exists n|].
      exists (k, os). cbn [snd]. rewrite <- En, path_of_att. split; [done|]. apply (ord_elem ord); [done|]. apply H3. split; [done|].
      intros ([k' fs] & Ek & Hk)%elem_of_list_fmap. cbn in Ek. subst k'. apply (ord_elem ord) in Hk; [|done].
      apply (group_None d task "input" k Hg) in Hno. congruence.
Qed.
(** Nothing is reported exactly when each number has one input and one output, or none *)
Theorem C79_clean ord d task : good_tree (ad_tree d) -> ordinary task -> (forall l, ord l ≡ₚ l) ->
  (get_sample_files ord d task).2 = [] <->
  forall k ins outs, sample_files d task "input" k ins -> sample_files d task "output" k outs -> (length ins = 0 /\ length outs = 0) \/ (length ins = 1 /\ length outs = 1).
Proof.
  intros Hg Ho Hp. pose proof (C79_reported ord d task Hg Ho Hp) as HR. split.
  - intros E k ins outs Hi Hout. rewrite E in HR.
    assert (~ 2 <= length ins) as H1. { intros H. apply (not_elem_of_nil (ADuplicate (bool_decide ("input" = "input")) k (map att_rel ins))). apply HR. left. exists "input", k, ins. split_and!; try done. set_solver. }
    assert (~ 2 <= length outs) as H2. { intros H. apply (not_elem_of_nil (ADuplicate (bool_decide ("output" = "input")) k (map att_rel outs))). apply HR. left. exists "output", k, outs. split_and!; try done. set_solver. }
    destruct ins as [|n ins], outs as [|m outs]; cbn [length] in *; [lia| | |right; lia]; exfalso.
    + apply (not_elem_of_nil (ANoInput (att_rel m))). apply HR. right. right. exists k, m. split_and!; [by eapply candidates_first| |done].
      destruct Hi as (_ & _ & Hi). intros n Hn%Hi. by apply elem_of_nil in Hn.
    + apply (not_elem_of_nil (ANoOutput (att_rel n))). apply HR. right. left. exists k, n. split_and!; [by eapply candidates_first| |done].
      destruct Hout as (_ & _ & Hi3). intros m Hn%Hi3. by apply elem_of_nil in Hn.
  - intros H. destruct (get_sample_files ord d task).2 as [|x xs]; [done|]. exfalso.
    destruct (proj1 (HR x)) as [(w & k & l & Hw & Hl & Hlen & _)|[(k & n & [Hn _] & Hno & _)|(k & n & [Hn _] & Hno & _)]]; [left|..].
    + pose proof (with_number_files d task "input" k Hg) as Hi. pose proof (with_number_files d task "output" k Hg) as Hout. pose proof (H k _ _ Hi Hout) as H0.
      apply elem_of_cons in Hw as [->|Hw%elem_of_list_singleton]; [|subst w]; [rewrite <- (candidates_unique _ _ _ _ _ _ Hl Hi) in H0|rewrite <- (candidates_unique _ _ _ _ _ _ Hl Hout) in H0]; lia.
    + pose proof (with_number_files d task "input" k Hg) as Hi. pose proof (with_number_files d task "output" k Hg) as Hout. pose proof (H k _ _ Hi Hout) as H0.
      destruct Hi as (_ & _ & Hi2). destruct Hout as (_ & _ & Hout2). apply Hi2 in Hn. destruct (with_number task k (att_files d task "output")) as [|m ms]; [|apply (Hno m), Hout2; left].
      destruct (with_number task k (att_files d task "input")); [by apply elem_of_nil in Hn|]. cbn in H0. lia.
    + pose proof (with_number_files d task "input" k Hg) as Hi. pose proof (with_number_files d task "output" k Hg) as Hout. pose proof (H k _ _ Hi Hout) as H0.
      destruct Hi as (_ & _ & Hi2). destruct Hout as (_ & _ & Hout2). apply Hout2 in Hn. destruct (with_number task k (att_files d task "input")) as [|m ms]; [|apply (Hno m), Hi2; left].
      destruct (with_number task k (att_files d task "output")); [by apply elem_of_nil in Hn|]. cbn in H0. lia.
Qed.

(** ** The links *)
Lemma samples_listed d task n : good_tree (ad_tree d) -> n ∈ att_files d task "input" ++ att_files d task "output" <-> att_sample d task n.
Proof. intros Hg. rewrite elem_of_app, !att_files_spec. unfold att_sample. tauto. Qed.
Lemma contains_spec p l : contains p l = true <-> exists a b, l = a ++ p ++ b.
Proof.
  induction l as [|c l IH]; cbn [contains]; rewrite orb_true_iff, starts_spec.
  - split.
    + intros [(b & E)|]; [|done]. by exists [], b.
    + intros (a & b & E). left. destruct a; [|done]. by exists b.
  - rewrite IH. split.
    + intros [(b & E)|(a & b & ->)]; [by exists [], b|by exists (c :: a), b].
    + intros (a & b & E). destruct a as [|c' a]; [left; by exists b|]. injection E as -> ->. right. by exists a, b.
Qed.
Lemma contains_inside s n : contains (chars s) (chars n) = true <-> has_inside s n.
Proof.
  rewrite contains_spec. split.
  - intros (a & b & E). exists (string_of_list_ascii a), (string_of_list_ascii b). apply chars_inj. by rewrite !chars_app, !chars_string.
  - intros (a & b & ->). exists (chars a), (chars b). by rewrite !chars_app.
Qed.
Lemma sample_of_spec d p c : sample_of d p = Some c <-> ad_canon d p = Some c /\ exists m, file_name c = Some m /\ has_inside "input" m.
Proof.
  unfold sample_of. destruct (ad_canon d p) as [c'|]; [|naive_solver]. destruct (file_name c') as [m|] eqn:Em.
  - destruct (contains (chars "input") (chars m)) eqn:E.
    + apply contains_inside in E. split; [intros [= ->]; split; [done|by exists m]|by intros [[= ->] _]].
    + split; [done|]. intros [[= ->] (m' & E' & H)]. rewrite Em in E'. injection E' as <-. apply contains_inside in H. congruence.
  - cbn. split; [done|]. intros [[= ->] (m' & E' & H)]. congruence.
Qed.
Lemma linked_spec d task c : good_tree (ad_tree d) -> c ∈ omap (sample_of d) (map (att task) (att_files d task "input" ++ att_files d task "output")) <-> linked d task c.
Proof.
  intros Hg. rewrite elem_of_list_omap. setoid_rewrite elem_of_list_fmap. setoid_rewrite samples_listed; [|done]. unfold linked. split.
  - intros (p & (n & -> & Hn) & (H & m & Hm)%sample_of_spec). exists n, m. tauto.
  - intros (n & m & Hn & H & Hm). exists (att task n). split; [by exists n|]. apply sample_of_spec. split; [done|]. by exists m.
Qed.
Lemma static_samples_spec d l : match static_samples d l with
  | Some r => SCustom ∉ l /\ forall c, c ∈ r <-> exists p, SStatic p ∈ l /\ c = match ad_canon d p with Some c => c | None => p end
  | None => SCustom ∈ l end.
Proof.
  induction l as [|g l IH]; cbn [static_samples].
  - split; [apply not_elem_of_nil|]. intros c. split; [by intros ?%elem_of_nil|by intros (p & ?%elem_of_nil & _)].
  - destruct g as [p|]; [|left]. destruct (static_samples d l) as [r|]; cbn [option_map]; [|by right].
    destruct IH as [H1 H2]. split; [by rewrite not_elem_of_cons|]. intros c. rewrite elem_of_cons, H2. split.
    + intros [->|(q & Hq & ->)]; [exists p; split; [left|done]|exists q; split; [by right|done]].
    + intros (q & [[= ->]|Hq]%elem_of_cons & ->); [by left|right; by exists q].
Qed.
Lemma task_sample_spec d subtask c : c ∈ samples_from_task d subtask <-> task_sample d subtask c.
Proof.
  unfold samples_from_task, task_sample. destruct subtask as [l|]; [|split; [by intros ?%elem_of_nil|by intros (? & ? & [=] & _)]].
  pose proof (static_samples_spec d l) as H. destruct (static_samples d l) as [r|].
  - destruct H as [H1 H2]. rewrite H2. split; [intros (p & Hp & ->); by exists l, p|intros (l' & p & [= <-] & _ & Hp & ->); by exists p].
  - split; [by intros ?%elem_of_nil|by intros (l' & p & [= <-] & ? & _)].
Qed.
Lemma att_sample_files_eq d task subtask : good_tree (ad_tree d) -> ordinary task ->
  let files := map (att task) (att_files d task "input" ++ att_files d task "output") in
  let from_task := remove_dups (samples_from_task d subtask) in let from_att := remove_dups (omap (sample_of d) files) in
  att_sample_files d task subtask =
  ((files ≫= sample_diag d task) ++
   (match from_task with
    | [] => []
    | _ => match list_difference from_task from_att with [] => [] | _ => [AMissingInAtt (map (path_of task) (list_difference from_task from_att))] end ++
           match list_difference from_att from_task with [] => [] | _ => [AMissingInTask (map (path_of task) (list_difference from_att from_task))] end
    end) ++
   match files with [] => [ANoSample] | _ => [] end, None).
Proof. intros Hg Ho. unfold att_sample_files. by rewrite (files_samples d task Hg Ho). Qed.
Lemma sample_diag_spec d task p x : x ∈ sample_diag d task p <->
  (exists t, ad_link d p = Some t /\ ad_canon d p = None /\ x = ABrokenSample (path_of task p) t) \/ (ad_link d p = None /\ x = ANotLink (path_of task p)).
Proof.
  unfold sample_diag. destruct (ad_link d p) as [t|]; [destruct (ad_canon d p)|].
  - split; [by intros ?%elem_of_nil|naive_solver].
  - rewrite elem_of_list_singleton. naive_solver.
  - rewrite elem_of_list_singleton. naive_solver.
Qed.
(** The check never fails; it reports the samples of att/ that are broken links, those that are not links, and att/ without samples *)
Theorem C79_links d task subtask : good_tree (ad_tree d) -> ordinary task ->
  let (ds, e) := att_sample_files d task subtask in
  e = None /\
  (forall p t, ABrokenSample p t ∈ ds <-> exists n, att_sample d task n /\ p = att_rel n /\ ad_link d (att task n) = Some t /\ ad_canon d (att task n) = None) /\
  (forall p, ANotLink p ∈ ds <-> exists n, att_sample d task n /\ p = att_rel n /\ ad_link d (att task n) = None) /\
  (ANoSample ∈ ds <-> forall n, ~ att_sample d task n).
Proof.
  intros Hg Ho. rewrite (att_sample_files_eq d task subtask Hg Ho). cbn zeta. set (names := att_files d task "input" ++ att_files d task "output").
  set (from_task := remove_dups (samples_from_task d subtask)). set (from_att := remove_dups (omap (sample_of d) (map (att task) names))).
  set (missing := match from_task with [] => [] | _ => _ end).
  assert (forall x, x ∈ missing -> exists l, x = AMissingInAtt l \/ x = AMissingInTask l) as Hm.
  { intros x. unfold missing. destruct from_task as [|f l]; [by intros ?%elem_of_nil|]. rewrite elem_of_app.
    destruct (list_difference (f :: l) from_att), (list_difference from_att (f :: l)); rewrite ?elem_of_nil, ?elem_of_list_singleton; naive_solver. }
  assert (forall x, x ∈ (map (att task) names ≫= sample_diag d task) <-> exists n, att_sample d task n /\ x ∈ sample_diag d task (att task n)) as Hd.
  { intros x. rewrite elem_of_list_bind. split.
    - intros (p & Hx & (n & -> & Hn)%elem_of_list_fmap). exists n. split; [|done]. by apply samples_listed.
    - intros (n & Hn & Hx). exists (att task n). split; [done|]. apply elem_of_list_fmap. exists n. split; [done|]. by apply samples_listed. }
  assert (forall x, x ∈ match map (att task) names with [] => [ANoSample] | _ => [] end <-> x = ANoSample /\ forall n, ~ att_sample d task n) as Hn.
  { intros x. destruct names as [|n ns] eqn:En; cbn [map].
    - rewrite elem_of_list_singleton. split; [intros ->; split; [done|]|by intros [-> _]]. intros n Hn. apply samples_listed in Hn; [|done]. fold names in Hn. rewrite En in Hn. by apply elem_of_nil in Hn.
    - split; [by intros ?%elem_of_nil|]. intros [_ H]. exfalso. apply (H n). apply samples_listed; [done|]. fold names. rewrite En. left. }
  split_and!; [done|..].
  - intros p t. rewrite !elem_of_app, Hd, Hn. split.
    + intros [(n & Hs & H)|[H|[[=] _]]].
      * apply sample_diag_spec in H as [(t' & H1 & H2 & [= -> ->])|[_ [=]]]. exists n. rewrite path_of_att. done.
      * apply Hm in H as (l & [[=]|[=]]).
    + intros (n & Hs & -> & Hl & Hc). left. exists n. split; [done|]. apply sample_diag_spec. left. exists t. by rewrite path_of_att.
  - intros p. rewrite !elem_of_app, Hd, Hn. split.
    + intros [(n & Hs & H)|[H|[[=] _]]].
      * apply sample_diag_spec in H as [(t' & H1 & H2 & [=])|[Hl [= ->]]]. exists n. rewrite path_of_att. done.
      * apply Hm in H as (l & [[=]|[=]]).
    + intros (n & Hs & -> & Hl). left. exists n. split; [done|]. apply sample_diag_spec. right. by rewrite path_of_att.
  - rewrite !elem_of_app, Hd, Hn. split.
    + intros [(n & Hs & H)|[H|[_ H]]]; [|by apply Hm in H as (l & [[=]|[=]])|done].
      apply sample_diag_spec in H as [(t' & H1 & H2 & [=])|[Hl [=]]].
    + intros H. right. right. done.
Qed.
(** The files of the inputs of the first subtask (when all its inputs are files) are compared with what the samples of att/ lead to: the files that are not there are in one
    error, and the converse in another one; there is no error about them when there is no difference, or when the task has no samples *)
Theorem C79_missing d task subtask : good_tree (ad_tree d) -> ordinary task ->
  let ds := (att_sample_files d task subtask).1 in
  ((exists l, AMissingInAtt l ∈ ds) <-> exists c, task_sample d subtask c /\ ~ linked d task c) /\
  (forall l p, AMissingInAtt l ∈ ds -> (p ∈ l <-> exists c, p = path_of task c /\ task_sample d subtask c /\ ~ linked d task c)) /\
  ((exists l, AMissingInTask l ∈ ds) <-> (exists c, task_sample d subtask c) /\ exists c, linked d task c /\ ~ task_sample d subtask c) /\
  (forall l p, AMissingInTask l ∈ ds -> (p ∈ l <-> exists c, p = path_of task c /\ linked d task c /\ ~ task_sample d subtask c)).
Proof.
  intros Hg Ho. rewrite (att_sample_files_eq d task subtask Hg Ho). cbn zeta. cbn [fst]. set (names := att_files d task "input" ++ att_files d task "output").
  set (from_task := remove_dups (samples_from_task d subtask)). set (from_att := remove_dups (omap (sample_of d) (map (att task) names))).
  assert (forall c, c ∈ from_task <-> task_sample d subtask c) as Ht. { intros c. unfold from_task. by rewrite elem_of_remove_dups, task_sample_spec. }
  assert (forall c, c ∈ from_att <-> linked d task c) as Ha. { intros c. unfold from_att. rewrite elem_of_remove_dups. by apply linked_spec. }
  set (dia := map (att task) names ≫= sample_diag d task). set (non := match map (att task) names with [] => [ANoSample] | _ => [] end).
  assert (forall x, (exists l, x = AMissingInAtt l \/ x = AMissingInTask l) -> x ∉ dia /\ x ∉ non) as Hx.
  { intros x (l & Hx). split.
    - unfold dia. intros (p & H & _)%elem_of_list_bind. apply sample_diag_spec in H as [(? & _ & _ & ->)|[_ ->]]; destruct Hx; done.
    - unfold non. destruct (map (att task) names); [intros ->%elem_of_list_singleton; destruct Hx; done|by intros ?%elem_of_nil]. }
  set (in_att := list_difference from_task from_att). set (in_task := list_difference from_att from_task).
  assert (forall c, c ∈ in_att <-> task_sample d subtask c /\ ~ linked d task c) as Hia. { intros c. unfold in_att. by rewrite elem_of_list_difference, Ht, Ha. }
  assert (forall c, c ∈ in_task <-> linked d task c /\ ~ task_sample d subtask c) as Hit. { intros c. unfold in_task. by rewrite elem_of_list_difference, Ht, Ha. }
  assert (forall l, AMissingInAtt l ∈ dia ++ match from_task with [] => [] | _ :: _ => match in_att with [] => [] | _ :: _ => [AMissingInAtt (map (path_of task) in_att)] end ++
     match in_task with [] => [] | _ :: _ => [AMissingInTask (map (path_of task) in_task)] end end ++ non <-> in_att <> [] /\ l = map (path_of task) in_att) as H1.
  { intros l. destruct (Hx (AMissingInAtt l)) as [Hx1 Hx2]; [eauto|]. rewrite !elem_of_app. split.
    - intros [?|[H|?]]; [done| |done]. destruct from_task; [by apply elem_of_nil in H|]. rewrite elem_of_app in H.
      destruct in_att; destruct in_task; rewrite ?elem_of_nil, ?elem_of_list_singleton in H; naive_solver.
    - intros [Hne ->]. right. left. destruct from_task as [|f fs] eqn:Ef.
      + exfalso. destruct in_att as [|c cs] eqn:Ec; [done|]. assert (task_sample d subtask c) as Hc by (apply Hia; left). apply Ht in Hc. by apply elem_of_nil in Hc.
      + rewrite elem_of_app. left. destruct in_att; [done|]. by apply elem_of_list_singleton. }
  assert (forall l, AMissingInTask l ∈ dia ++ match from_task with [] => [] | _ :: _ => match in_att with [] => [] | _ :: _ => [AMissingInAtt (map (path_of task) in_att)] end ++
     match in_task with [] => [] | _ :: _ => [AMissingInTask (map (path_of task) in_task)] end end ++ non <-> from_task <> [] /\ in_task <> [] /\ l = map (path_of task) in_task) as H2.
  { intros l. destruct (Hx (AMissingInTask l)) as [Hx1 Hx2]; [eauto|]. rewrite !elem_of_app. split.
    - intros [?|[H|?]]; [done| |done]. destruct from_task; [by apply elem_of_nil in H|]. rewrite elem_of_app in H.
      destruct in_att; destruct in_task; rewrite ?elem_of_nil, ?elem_of_list_singleton in H; naive_solver.
    - intros (Hf & Hne & ->). right. left. destruct from_task as [|f fs]; [done|].
      rewrite elem_of_app. right. destruct in_task; [done|]. by apply elem_of_list_singleton. }
  clearbody in_att in_task. split_and!.
  - setoid_rewrite H1. split.
    + intros (l & Hl & _). destruct in_att as [|c cs]; [done|]. exists c. apply Hia. left.
    + intros (c & Hc). exists (map (path_of task) in_att). split; [|done]. intros ->. apply Hia in Hc. by apply elem_of_nil in Hc.
  - intros l p [_ ->]%H1. rewrite elem_of_list_fmap. split; intros (c & -> & Hc); exists c; split; try done; by apply Hia.
  - setoid_rewrite H2. split.
    + intros (l & Hf & Hl & _). split; [destruct from_task as [|c cs]; [done|]; exists c; apply Ht; left|]. destruct in_task as [|c cs]; [done|]. exists c. apply Hit. left.
    + intros ((c0 & Hc0) & c & Hc). exists (map (path_of task) in_task). split_and!; [| |done].
      * intros E. apply Ht in Hc0. rewrite E in Hc0. by apply elem_of_nil in Hc0.
      * intros ->. apply Hit in Hc. by apply elem_of_nil in Hc.
  - intros l p (_ & _ & ->)%H2. rewrite elem_of_list_fmap. split; intros (c & -> & Hc); exists c; split; try done; by apply Hit.
Qed.
(** When the file that a sample leads to is an input by its name exactly when the sample is, what att/ has is what its inputs lead to *)
Theorem C79_linked d task c :
  (forall n c m, att_sample d task n -> ad_canon d (att task n) = Some c -> file_name c = Some m -> (has_inside "input" m <-> about "input" n)) ->
  (forall n c, att_sample d task n -> ad_canon d (att task n) = Some c -> is_Some (file_name c)) ->
  linked d task c <-> exists n, entry (ad_tree d) (child task "att") n /\ about "input" n /\ ad_canon d (att task n) = Some c.
Proof.
  intros H H0. split.
  - intros (n & m & Hn & Hc & Hm & Hi). exists n. split_and!; [apply Hn| |done]. by apply (H n c m).
  - intros (n & He & Ha & Hc). assert (att_sample d task n) as Hs by (split; [done|by left]). destruct (H0 n c Hs Hc) as [m Hm].
    exists n, m. split_and!; try done. by apply (H n c m).
Qed.

(** ** Examples *)
Definition t_task : fpath := FPath true ["home"; "task"].
Definition in_task (l : list string) : fpath := FPath true (["home"; "task"] ++ l).
(** a disk with some files; [links]: the attachments that are links, and where they lead (if they are not broken) *)
Definition disk_of (files : list (list string)) (links : list (list string * string * option (list string))) : att_disk :=
  let find p := find (fun l => bool_decide (p = in_task l.1.1)) links in
  AttDisk (tree_of (map (fun f => ["home"; "task"] ++ f) files))
    (fun p => match find p with Some (_, t, _) => Some t | None => None end)
    (fun p => match find p with Some (_, _, Some c) => Some (in_task c) | Some (_, _, None) => None
                              | None => if stat (tree_of (map (fun f => ["home"; "task"] ++ f) files)) p then Some p else None end)
    (fun _ => None) (fun _ => None).
Ltac good_disk := change (ad_tree (disk_of ?f ?l)) with (tree_of (map (fun f => ["home"; "task"] ++ f) f)); good_files.
Definition example_disk : att_disk := disk_of
  [["att"; "input0.txt"]; ["att"; "easy.input10.txt"]; ["att"; "easy.output10.txt"]; ["att"; "output0.txt"]; ["att"; "input2.txt"]; ["att"; "output7.txt"]; ["att"; "output07.txt"];
   ["att"; "task.cpp"]; ["statement"; "easy.input0.txt"]; ["statement"; "easy.input1.txt"]]
  [(["att"; "input0.txt"], "../statement/easy.input0.txt", Some ["statement"; "easy.input0.txt"]); (["att"; "input2.txt"], "../statement/easy.input2.txt", None);
   (["att"; "output0.txt"], "../statement/easy.output0.txt", Some ["statement"; "easy.output0.txt"])].
Example C79_ex_good : good_tree (ad_tree example_disk) /\ ordinary t_task.
Proof. split; [good_files|]. apply (bool_decide_unpack _). vm_compute. exact Logic.I. Qed.
Example C79_ex_pairs : get_sample_files id example_disk t_task =
  ([(att t_task "input0.txt", att t_task "output0.txt"); (att t_task "easy.input10.txt", att t_task "easy.output10.txt")],
   [ADuplicate false 7 [att_rel "output07.txt"; att_rel "output7.txt"]; ANoOutput (att_rel "input2.txt"); ANoInput (att_rel "output07.txt")]).
Proof. vm_compute. reflexivity. Qed.
Example C79_ex_links : att_sample_files example_disk t_task (Some [SStatic (in_task ["statement"; "easy.input0.txt"]); SStatic (in_task ["statement"; "easy.input1.txt"])]) =
  ([ANotLink (att_rel "easy.input10.txt"); ABrokenSample (att_rel "input2.txt") "../statement/easy.input2.txt"; ANotLink (att_rel "easy.output10.txt");
    ANotLink (att_rel "output07.txt"); ANotLink (att_rel "output7.txt"); AMissingInAtt [FPath false ["statement"; "easy.input1.txt"]];
    AMissingInTask [att_rel "easy.input10.txt"]], None).
Proof. vm_compute. reflexivity. Qed.

(** A sample without a number, or with one that does not fit 32 bits, is not checked and nothing is said *)
Theorem C79_unnumbered_refuted :
  let d := disk_of [["att"; "input.txt"]; ["att"; "input4294967296.txt"]] [] in
  good_tree (ad_tree d) /\ ordinary t_task /\ att_sample d t_task "input.txt" /\ att_sample d t_task "input4294967296.txt" /\ get_sample_files id d t_task = ([], []).
Proof.
  cbn zeta. split_and!; [good_files|apply (bool_decide_unpack _); vm_compute; exact Logic.I| | |vm_compute; reflexivity].
  - split; [|left; by exists "", ""]. eexists. split; [vm_compute; reflexivity|]. apply (bool_decide_unpack _). vm_compute. exact Logic.I.
  - split; [|left; by exists "", "4294967296"]. eexists. split; [vm_compute; reflexivity|]. apply (bool_decide_unpack _). vm_compute. exact Logic.I.
Qed.
(** One file can be the input and the output of a sample *)
Theorem C79_itself_refuted :
  let d := disk_of [["att"; "input_output3.txt"]] [] in
  good_tree (ad_tree d) /\ ordinary t_task /\ get_sample_files id d t_task = ([(att t_task "input_output3.txt", att t_task "input_output3.txt")], []).
Proof. cbn zeta. split_and!; [good_files|apply (bool_decide_unpack _); vm_compute; exact Logic.I|vm_compute; reflexivity]. Qed.
(** The sample of the task is in att/, as a link to the very file of the task; as that file is not called an input, it is reported as missing *)
Theorem C79_renamed_refuted :
  let d := disk_of [["att"; "input0.txt"]; ["statement"; "sample0.txt"]] [(["att"; "input0.txt"], "../statement/sample0.txt", Some ["statement"; "sample0.txt"])] in
  good_tree (ad_tree d) /\ ordinary t_task /\
  ad_canon d (att t_task "input0.txt") = ad_canon d (in_task ["statement"; "sample0.txt"]) /\
  att_sample_files d t_task (Some [SStatic (in_task ["statement"; "sample0.txt"])]) = ([AMissingInAtt [FPath false ["statement"; "sample0.txt"]]], None).
Proof. cbn zeta. split_and!; [good_files|apply (bool_decide_unpack _); vm_compute; exact Logic.I|vm_compute; reflexivity..]. Qed.

Print Assumptions C79_pairs.
Print Assumptions C79_reported.
Print Assumptions C79_clean.
Print Assumptions C79_links.
Print Assumptions C79_missing.
Print Assumptions C79_linked.
