(** * AttProofs2: the pairs of samples *)
From Verif Require Export AttProofs.
From Verif Require Import FindProofs FindProofs2 FindProofs3 LangProofs LangProofs2 LangProofs3 BuildProofs.
From Coq Require Import Ascii String NArith.
From stdpp Require Import base list sorting gmap.
Local Open Scope nat_scope.

Lemma group_lookup l k : group_files l !! k = match map snd (filter (fun x => x.1 = k) l) with [] => None | fs => Some fs end.
Proof.
  unfold group_files. induction l as [|[n p] l IH] using rev_ind; [done|].
  rewrite fold_left_app. cbn [fold_left fst snd]. rewrite filter_app, map_app.
  destruct (decide (n = k)) as [->|Hn].
  - rewrite filter_cons_True, filter_nil by done. rewrite lookup_insert. change (map snd [(k, p)]) with [p].
    rewrite IH. destruct (map snd (filter (λ x : N * fpath, x.1 = k) l)); done.
  - rewrite filter_cons_False, filter_nil by done. rewrite app_nil_r, lookup_insert_ne by done. exact IH.
Qed.
(** the names with a number *)
Definition with_number (task : fpath) (k : N) (l : list string) : list string :=
  filter (fun n => extract_num (chars (show_path (att task n))) = Some k) l.
Lemma numbered_filter task l k : map snd (filter (fun x => x.1 = k) (numbered_files (map (att task) l))) = map (att task) (with_number task k l).
Proof.
  unfold numbered_files, with_number. set (f := fun p : fpath => match extract_num (chars (show_path p)) with Some n => Some (n, p) | None => None end).
  induction l as [|n l IH]; [done|].
  change (map (att task) (n :: l)) with (att task n :: map (att task) l).
  change (omap f (att task n :: map (att task) l)) with (match f (att task n) with Some y => y :: omap f (map (att task) l) | None => omap f (map (att task) l) end).
  unfold f at 1. destruct (extract_num (chars (show_path (att task n)))) as [m|] eqn:E.
  - destruct (decide (m = k)) as [->|Hm].
    + rewrite !filter_cons_True by done. change (att task n :: map snd (filter (λ x : N * fpath, x.1 = k) (omap f (map (att task) l))) =
        att task n :: map (att task) (filter (λ n0, extract_num (chars (show_path (att task n0))) = Some k) l)). by rewrite IH.
    + rewrite !filter_cons_False by (try done; cbn; congruence). exact IH.
  - rewrite filter_cons_False by (cbn; congruence). exact IH.
Qed.
Definition the_group (d : att_disk) (task : fpath) (w : string) : gmap N (list fpath) :=
  group_files (numbered_files (map (att task) (att_files d task w))).
Lemma filter_sorted {A} (R : A -> A -> Prop) (P : A -> Prop) `{forall x, Decision (P x)} l : StronglySorted R l -> StronglySorted R (filter P l).
Proof.
  induction 1 as [|x l Hl IH Hx]; [constructor|]. destruct (decide (P x)).
  - rewrite filter_cons_True by done. constructor; [done|]. rewrite Forall_forall in *. intros y [_ Hy]%elem_of_list_filter. auto.
  - by rewrite filter_cons_False.
Qed.
Lemma with_number_files d task w k : good_tree (ad_tree d) -> sample_files d task w k (with_number task k (att_files d task w)).
Proof.
  intros Hg. unfold sample_files, with_number. split_and!.
  - by apply NoDup_filter, matching_NoDup.
  - apply filter_sorted, matching_sorted.
  - intros n. rewrite elem_of_list_filter, att_files_spec. unfold sample_file. split.
    + intros (H & He & Ha). split_and!; [done|done|]. by apply (att_number d task n k).
    + intros (He & Ha & H). split_and!; [|done|done]. by apply (att_number d task n k).
Qed.
Lemma candidates_unique d task w k l l' : sample_files d task w k l -> sample_files d task w k l' -> l = l'.
Proof.
  intros (H1 & H2 & H3) (H4 & H5 & H6). apply (StronglySorted_unique name_le); try done. apply NoDup_Permutation; try done. intros n. by rewrite H3, H6.
Qed.
Lemma group_Some d task w k fs : good_tree (ad_tree d) ->
  the_group d task w !! k = Some fs <-> exists l, sample_files d task w k l /\ l <> [] /\ fs = map (att task) l.
Proof.
  intros Hg. unfold the_group. rewrite group_lookup, numbered_filter. pose proof (with_number_files d task w k Hg) as Hc. split.
  - destruct (with_number _ _ _) as [|n ns] eqn:E; [done|]. intros [= <-]. by exists (n :: ns).
  - intros (l & Hl & Hn & ->). rewrite (candidates_unique _ _ _ _ _ _ Hl Hc) in *. by destruct (with_number _ _ _).
Qed.
Lemma group_None d task w k : good_tree (ad_tree d) -> the_group d task w !! k = None <-> forall n, ~ sample_file d task w k n.
Proof.
  intros Hg. pose proof (with_number_files d task w k Hg) as Hc. split.
  - intros H n Hn. destruct Hc as (H1 & H2 & H3). destruct (with_number _ _ _) as [|m ms] eqn:E.
    + apply H3 in Hn. by apply elem_of_nil in Hn.
    + assert (the_group d task w !! k = Some (map (att task) (m :: ms))) as H4. { apply group_Some; [done|]. by exists (m :: ms). } congruence.
  - intros H. destruct (the_group d task w !! k) as [fs|] eqn:E; [|done]. exfalso. apply group_Some in E as (l & (_ & _ & Hl) & Hn & _); [|done].
    destruct l as [|n l]; [done|]. apply (H n), Hl. left.
Qed.
Lemma candidates_first d task w k n l : sample_files d task w k (n :: l) -> first_sample d task w k n.
Proof.
  intros (H1 & H2 & H3). split; [apply H3; left|]. intros m Hm. apply H3 in Hm. apply StronglySorted_inv in H2 as [_ H2]. rewrite Forall_forall in H2.
  apply elem_of_cons in Hm as [->|Hm]; [apply name_le_refl|auto].
Qed.
Lemma first_unique d task w k n m : first_sample d task w k n -> first_sample d task w k m -> n = m.
Proof. intros [H1 H2] [H3 H4]. apply (anti_symm name_le); auto. Qed.
Lemma first_group d task w k p : good_tree (ad_tree d) ->
  (exists fs, the_group d task w !! k = Some fs /\ p = hd (FPath false []) fs) <-> exists n, first_sample d task w k n /\ p = att task n.
Proof.
  intros Hg. split.
  - intros (fs & H & ->). apply group_Some in H as (l & Hl & Hn & ->); [|done]. destruct l as [|n l]; [done|]. exists n. split; [by eapply candidates_first|done].
  - intros (n & Hf & ->). pose proof (with_number_files d task w k Hg) as Hc. destruct (with_number _ _ _) as [|m ms].
    + exfalso. destruct Hc as (_ & _ & H). destruct Hf as [Hf _]. apply H in Hf. by apply elem_of_nil in Hf.
    + assert (m = n) as -> by (eapply first_unique; [by eapply candidates_first|done]).
      exists (map (att task) (n :: ms)). split; [|done]. apply group_Some; [done|]. by exists (n :: ms).
Qed.

Lemma pair_loop_spec task l outs ps ds rest : NoDup (map fst l) -> pair_loop task l outs = (ps, ds, rest) ->
  (forall a b, (a, b) ∈ ps <-> exists k fs os, (k, fs) ∈ l /\ outs !! k = Some os /\ a = hd (FPath false []) fs /\ b = hd (FPath false []) os) /\
  (forall x, x ∈ ds <-> exists k fs, (k, fs) ∈ l /\ outs !! k = None /\ x = ANoOutput (path_of task (hd (FPath false []) fs))) /\
  (forall k os, rest !! k = Some os <-> outs !! k = Some os /\ k ∉ map fst l).
Proof.
  revert outs ps ds rest. induction l as [|[n fs] l IH]; intros outs ps ds rest Hn; cbn [pair_loop].
  - intros [= <- <- <-]. split_and!.
    + intros a b. split; [by intros ?%elem_of_nil|]. by intros (? & ? & ? & ?%elem_of_nil & _).
    + intros x. split; [by intros ?%elem_of_nil|]. by intros (? & ? & ?%elem_of_nil & _).
    + intros k os. split; [intros ?; split; [done|apply not_elem_of_nil]|tauto].
  - cbn [map fst] in Hn. apply NoDup_cons in Hn as [Hn1 Hn2]. destruct (outs !! n) as [os|] eqn:Eo.
    + destruct (pair_loop task l (delete n outs)) as [[ps' ds'] rest'] eqn:E. intros [= <- <- <-].
      destruct (IH _ _ _ _ Hn2 E) as (H1 & H2 & H3).
      assert (forall k fs', (k, fs') ∈ l -> delete n outs !! k = outs !! k) as Hd.
      { intros k fs' Hk. apply lookup_delete_ne. intros ->. apply Hn1. apply elem_of_list_fmap. by exists (k, fs'). }
      split_and!.
      * intros a b. rewrite elem_of_cons, H1. split.
        -- intros [[= -> ->]|(k & fs' & os' & Hk & Ho & -> & ->)]; [exists n, fs, os; split; [left|done]|].
           exists k, fs', os'. split; [by right|]. by rewrite <- (Hd k fs').
        -- intros (k & fs' & os' & [[= -> ->]|Hk]%elem_of_cons & Ho & -> & ->); [left; congruence|].
           right. exists k, fs', os'. split; [done|]. by rewrite (Hd k fs').
      * intros x. rewrite H2. split.
        -- intros (k & fs' & Hk & Ho & ->). exists k, fs'. split; [by right|]. by rewrite <- (Hd k fs').
        -- intros (k & fs' & [[= -> ->]|Hk]%elem_of_cons & Ho & ->); [congruence|]. exists k, fs'. split; [done|]. by rewrite (Hd k fs').
      * intros k os'. rewrite H3, lookup_delete_Some. cbn [map fst]. rewrite not_elem_of_cons. naive_solver.
    + destruct (pair_loop task l outs) as [[ps' ds'] rest'] eqn:E. intros [= <- <- <-].
      destruct (IH _ _ _ _ Hn2 E) as (H1 & H2 & H3). split_and!.
      * intros a b. rewrite H1. split.
        -- intros (k & fs' & os' & Hk & ?). exists k, fs', os'. split; [by right|done].
        -- intros (k & fs' & os' & [[= -> ->]|Hk]%elem_of_cons & Ho & ?); [congruence|]. by exists k, fs', os'.
      * intros x. rewrite elem_of_cons, H2. split.
        -- intros [->|(k & fs' & Hk & ?)]; [exists n, fs; split; [left|done]|exists k, fs'; split; [by right|done]].
        -- intros (k & fs' & [[= -> ->]|Hk]%elem_of_cons & Ho & ->); [by left|]. right. by exists k, fs'.
      * intros k os'. rewrite H3. cbn [map fst]. rewrite not_elem_of_cons. naive_solver.
Qed.
Lemma pair_loop_NoDup task l outs ps ds rest : NoDup (map (fun x => hd (FPath false []) (snd x)) l) -> pair_loop task l outs = (ps, ds, rest) ->
  (forall a b, (a, b) ∈ ps -> a ∈ map (fun x => hd (FPath false []) (snd x)) l) /\ NoDup (map fst ps).
Proof.
  revert outs ps ds rest. induction l as [|[n fs] l IH]; intros outs ps ds rest Hn; cbn [pair_loop].
  - intros [= <- <- <-]. split; [by intros a b ?%elem_of_nil|constructor].
  - cbn [map fst snd] in *. apply NoDup_cons in Hn as [Hn1 Hn2]. destruct (outs !! n) as [os|] eqn:Eo.
    + destruct (pair_loop task l (delete n outs)) as [[ps' ds'] rest'] eqn:E. intros [= <- <- <-]. destruct (IH _ _ _ _ Hn2 E) as [H1 H2]. split.
      * intros a b [[= -> ->]|H]%elem_of_cons; [left|right; by eapply H1].
      * cbn [map fst]. apply NoDup_cons. split; [|done]. intros ([a b] & E2 & H)%elem_of_list_fmap. cbn in E2. subst a. apply Hn1. by eapply H1.
    + destruct (pair_loop task l outs) as [[ps' ds'] rest'] eqn:E. intros [= <- <- <-]. destruct (IH _ _ _ _ Hn2 E) as [H1 H2]. split; [|done].
      intros a b H. right. by eapply H1.
Qed.
Lemma duplicates_spec task input m x : x ∈ duplicates task input m <-> exists k fs, m !! k = Some fs /\ length fs <> 1 /\ x = ADuplicate input k (map (path_of task) fs).
Proof.
  unfold duplicates. rewrite elem_of_list_omap. setoid_rewrite (merge_sort_Permutation num_le (map_to_list m)). split.
  - intros ([k fs] & H & E). apply elem_of_map_to_list in H. cbn in E. case_decide; [done|]. injection E as <-. by exists k, fs.
  - intros (k & fs & H & Hl & ->). exists (k, fs). split; [by apply elem_of_map_to_list|]. cbn. by rewrite decide_False.
Qed.
