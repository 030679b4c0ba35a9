(** * C98: the information about a task, and the files of the competition *)
From Coq Require Import NArith ZArith Reals.
From Flocq Require Import IEEE754.BinarySingleNaN.
From Verif Require Import InfoModel InfoSpec InfoProofs FloatModel FloatProofs SanityProofs2.
From stdpp Require Import sorting.

Section props.
Context (mime : fpath -> option string) (listing : files -> fpath -> list string).
Notation new_info := (new_info mime listing).

(** ** task-info *)
(** The name, the title and the limits are those of the task; the subtasks are given in the order of their identifiers,
    with the maximum score and the number of testcases *)
Theorem C98_subtasks t f l : in_order (it_subtasks t) l ->
  ti_name (new_info t f) = it_name t /\ ti_title (new_info t f) = it_title t /\ ti_time (new_info t f) = it_time t /\ ti_memory (new_info t f) = it_memory t /\
  ti_version (new_info t f) = 1%N /\
  ti_subtasks (new_info t f) = map (fun st => (st.2.1, N.of_nat (length st.2.2))) l.
Proof. intros H. cbn. by rewrite (sort_in_order _ _ H). Qed.
(** With integer scores the maximum score is their sum *)
Theorem C98_max_score_partial t f zs : whole_scores t zs ->
  fin (ti_max_score (new_info t f)) /\ f64_R (ti_max_score (new_info t f)) = IZR (foldr Z.add 0%Z zs).
Proof.
  intros (E & Hz & Hs). cbn [ti_max_score InfoModel.new_info]. destruct f64_zero_R as [F0 R0].
  destruct (sum_Z zs f64_zero 0%Z F0 R0) as [F R]; [lia|done|lia|]. rewrite Z.add_0_l in R.
  assert (forall (l : list (nat * (f64 * list nat))) a, fold_left (fun sum st => f64_add sum st.2.1) l a = fold_left f64_add (map (fun x => x.2.1) l) a) as Hf.
  { induction l as [|x l IH]; intros a; cbn; [done|]. apply IH. }
  rewrite Hf, E. done.
Qed.
(** A statement for each booklet, with its path in the directory of the task *)
Theorem C98_statements t f k lang r : it_booklets t !! k = Some (lang, it_path t ++ r) ->
  ti_statements (new_info t f) !! k = Some (InfoFile lang (match mime (it_path t ++ r) with Some m => m | None => "UNKNOWN" end) r).
Proof.
  intros H. cbn. change (map ?g ?l) with (g <$> l). rewrite list_lookup_fmap, H. cbn. unfold statement_info. cbn. rewrite path_of_under. by destruct (mime _).
Qed.
Theorem C98_statements_count t f : length (ti_statements (new_info t f)) = length (it_booklets t).
Proof. cbn. by rewrite map_length. Qed.
(** The attachments are exactly the files that are directly in att/, each once *)
Theorem C98_attachments t f : lists listing -> is_dir (it_path t ++ ["att"]) f = true ->
  NoDup (map if_name (ti_attachments (new_info t f))) /\
  forall x, x ∈ ti_attachments (new_info t f) <-> exists n, (exists b, f !! (it_path t ++ ["att"; n]) = Some (FFile b)) /\
    x = InfoFile n (match mime (it_path t ++ ["att"; n]) with Some m => m | None => "UNKNOWN" end) ["att"; n].
Proof.
  intros Hl Hd. cbn. unfold attachments. rewrite Hd. destruct (Hl f (it_path t ++ ["att"])) as [H1 H2]. split.
  - rewrite map_map. cbn. rewrite map_id. by apply NoDup_filter.
  - intros x. rewrite elem_of_list_fmap. setoid_rewrite elem_of_list_filter. setoid_rewrite H2. unfold is_file, attachment_info. setoid_rewrite path_of_under. split.
    + intros (n & -> & Hf & _). exists n. split; [destruct (f !! _) as [[|b]|]; [done|by exists b|done]|]. by destruct (mime _).
    + intros (n & (b & Hb) & ->). exists n. rewrite Hb. split; [by destruct (mime _)|]. split; [done|]. rewrite <- app_assoc. cbn. by eexists.
Qed.
Theorem C98_no_attachments t f : is_dir (it_path t ++ ["att"]) f = false -> ti_attachments (new_info t f) = [].
Proof. intros H. cbn. unfold attachments. by rewrite H. Qed.

(** ** copy-competition-files *)
(** The files of a task: each one is in the directory, with its base name and the content of the last one that has it;
    nothing else changes, except for the directory *)
Theorem C98_copy i task d x f f' : copy_files i task d x f = Some f' -> (forall y, y ∈ to_copy i -> outside (d ++ [x]) (task ++ if_path y)) ->
  (forall n src, last_called task (to_copy i) n src -> exists b, f !! src = Some (FFile b) /\ f' !! (d ++ [x; n]) = Some (FFile b)) /\
  (forall p, p <> d ++ [x] -> (forall y n, y ∈ to_copy i -> last (if_path y) = Some n -> p <> d ++ [x; n]) -> f' !! p = f !! p) /\
  is_Some (f' !! (d ++ [x])).
Proof.
  intros H Ho. rewrite copy_files_all in H. apply bind_Some in H as (g & H1 & H2). assert (forall n, d ++ [x; n] = (d ++ [x]) ++ [n]) as Ea by (intros n; by rewrite <- app_assoc).
  split; [|split].
  - intros n src Hn. destruct (copy_all_last _ _ _ _ _ _ _ H2 Ho Hn) as (b & Hb1 & Hb2). exists b. rewrite Ea. split; [|done].
    rewrite (ensure_ne _ _ _ _ _ H1) in Hb1; [done|]. destruct Hn as (a & y & c & E & _ & -> & _). intros E'. apply (Ho y); [rewrite E, elem_of_app, elem_of_cons; tauto|].
    rewrite E'. done.
  - intros p Hp Hn. rewrite (copy_all_outside _ _ _ _ _ _ H2); [by eapply ensure_ne|]. intros y n Hy Hl. rewrite <- Ea. by apply (Hn y).
  - rewrite (copy_all_outside _ _ _ _ _ _ H2).
    + apply ensure_spec in H1 as [[-> H]|(_ & _ & ->)]; [done|]. rewrite lookup_insert. by eexists.
    + intros y n _ _ E. apply (f_equal length) in E. rewrite !app_length in E. cbn in E. lia.
Qed.
(** Each file that has to be copied has a last one with the same base name *)
Theorem C98_each i task y n : y ∈ to_copy i -> last (if_path y) = Some n -> exists src, last_called task (to_copy i) n src.
Proof.
  unfold last_called. generalize (to_copy i). intros l. induction l as [|x l IH] using rev_ind; intros Hy Hn; [by apply elem_of_nil in Hy|].
  destruct (decide (last (if_path x) = Some n)) as [Hx|Hx].
  - exists (task ++ if_path x), l, x, []. done.
  - apply elem_of_app in Hy as [Hy|Hy]; [|apply elem_of_list_singleton in Hy as ->; done]. destruct (IH Hy Hn) as (src & a & w & b & -> & H1 & H2 & H3).
    exists src, a, w, (b ++ [x]). rewrite <- app_assoc. split_and!; [done..|]. apply Forall_app. split; [done|]. by constructor.
Qed.
(** It works when the directory can be there, all the files exist, and no directory has the name of one of them *)
Theorem C98_copy_works i task d x f : is_dir (d ++ [x]) f = true \/ (f !! (d ++ [x]) = None /\ is_dir d f = true) ->
  (forall y, y ∈ to_copy i -> outside (d ++ [x]) (task ++ if_path y) /\ exists n b, last (if_path y) = Some n /\ f !! (d ++ [x; n]) <> Some FDir /\ f !! (task ++ if_path y) = Some (FFile b)) ->
  is_Some (copy_files i task d x f).
Proof.
  intros Hd Hl. rewrite copy_files_all. assert (exists g, ensure_dir d x f = Some g /\ is_dir (d ++ [x]) g = true /\ forall p, p <> d ++ [x] -> g !! p = f !! p) as (g & -> & Hg & Hp).
  { unfold ensure_dir. destruct Hd as [Hd|[Hn Hd]].
    - unfold is_dir in Hd |- *. destruct (f !! (d ++ [x])) as [[]|] eqn:E; try done. exists f. by rewrite E.
    - rewrite Hn, Hd. eexists. split; [done|]. unfold is_dir. rewrite lookup_insert. split; [done|]. intros p Hp. by apply lookup_insert_ne. }
  cbn. apply copy_all_total; [done|intros y Hy; by apply Hl|]. intros y Hy. destruct (Hl y Hy) as [Ho (n & b & Hn & Hnd & Hb)]. exists n. split; [done|].
  assert ((d ++ [x]) ++ [n] = d ++ [x; n]) as E by (by rewrite <- app_assoc). unfold is_dir, is_file. rewrite E. split.
  - rewrite Hp; [destruct (f !! (d ++ [x; n])) as [[]|]; done|]. intros E'. apply (f_equal length) in E'. rewrite !app_length in E'. cbn in E'. lia.
  - rewrite Hp; [by rewrite Hb|]. intros E'. apply Ho. by rewrite E'.
Qed.

(** The whole run: every task that is copied has its files at the end, if the names of the tasks are distinct and the
    evaluations do not write in competition-files.  The files are those of the directory that is called as the task, when
    its turn came. *)
Theorem C98_run eval load f tr f' ts g : copy_main mime listing eval load f = Some (tr, f') -> ensure_dir [] competition f = Some g -> load g = Some ts ->
  NoDup (map it_name ts) -> Forall (fun t => it_name t <> competition) ts ->
  (forall t a b p, eval t a = Some b -> [competition] `prefix_of` p -> b !! p = a !! p) ->
  length tr = length ts /\
  forall k t fk n src, ts !! k = Some t -> tr !! k = Some fk -> last_called [it_name t] (to_copy (new_info t fk)) n src ->
    exists b, fk !! src = Some (FFile b) /\ f' !! [competition; it_name t; n] = Some (FFile b).
Proof.
  intros H Hg Hload Hn Hc He. unfold copy_main in H. rewrite Hg in H. cbn in H. rewrite Hload in H. cbn in H. clear Hg Hload f load.
  revert tr g H. induction ts as [|t ts IH]; intros tr g H; cbn in H; [injection H as <- <-; done|].
  apply bind_Some in H as (f1 & H1 & H). apply bind_Some in H as (f2 & H2 & H). apply bind_Some in H as ([tr' f3] & H3 & H). injection H as <- <-.
  apply NoDup_cons in Hn as [Hn1 Hn2]. apply Forall_cons in Hc as [Hc1 Hc2]. destruct (IH Hn2 Hc2 tr' f2 H3) as [IHl IHk]. split; [cbn; by rewrite IHl|].
  intros k t' fk n src Ht Hk Hl. destruct k as [|k]; [|by eapply IHk]. cbn in Ht, Hk. injection Ht as <-. injection Hk as <-.
  assert (forall y, y ∈ to_copy (new_info t f1) -> outside ([competition] ++ [it_name t]) ([it_name t] ++ if_path y)) as Ho.
  { intros y _ Hp. cbn in Hp. apply prefix_cons_inv_1 in Hp. done. }
  destruct (C98_copy _ _ _ _ _ _ H2 Ho) as (HA & _ & _). destruct (HA n src Hl) as (b & Hb1 & Hb2). exists b. split; [done|]. cbn in Hb2. rewrite <- Hb2.
  assert (forall ts tr a c, copy_tasks mime listing eval ts a = Some (tr, c) -> it_name t ∉ map it_name ts -> Forall (fun t => it_name t <> competition) ts -> c !! [competition; it_name t; n] = a !! [competition; it_name t; n]) as Hk.
  { clear -He. induction ts as [|u ts IH]; intros tr a c H Hu Hcs; cbn in H; [by injection H as <- <-|].
    apply bind_Some in H as (a1 & H1 & H). apply bind_Some in H as (a2 & H2 & H). apply bind_Some in H as ([tr' a3] & H3 & H). injection H as <- <-.
    cbn in Hu. rewrite not_elem_of_cons in Hu. destruct Hu as [Hu1 Hu2]. apply Forall_cons in Hcs as [Hc1 Hc2]. rewrite (IH _ _ _ H3 Hu2 Hc2).
    assert (forall y, y ∈ to_copy (new_info u a1) -> outside ([competition] ++ [it_name u]) ([it_name u] ++ if_path y)) as Ho.
    { intros y _ Hp. cbn in Hp. apply prefix_cons_inv_1 in Hp. done. }
    destruct (C98_copy _ _ _ _ _ _ H2 Ho) as (_ & HB & _). rewrite HB; [|done|intros y m _ _ [= E _]; done].
    apply (He u); [done|]. by exists [it_name t; n]. }
  by eapply Hk.
Qed.
End props.
Print Assumptions C98_subtasks.
Print Assumptions C98_max_score_partial.
Print Assumptions C98_statements.
Print Assumptions C98_statements_count.
Print Assumptions C98_attachments.
Print Assumptions C98_no_attachments.
Print Assumptions C98_copy.
Print Assumptions C98_each.
Print Assumptions C98_copy_works.
Print Assumptions C98_run.

(** ** What is false *)
Definition no_mime (p : fpath) : option string := None.
Definition by_name (f : files) (d : fpath) : list string :=
  omap (fun kv => match last kv.1 with Some n => if decide (kv.1 = d ++ [n]) then Some n else None | None => None end) (map_to_list f).
(** The maximum score depends on the order in which the hash map is iterated *)
Definition scored (l : list (nat * (f64 * list nat))) : info_task := InfoTask ["a"] "a" "A" None None l [].
Definition three : list (nat * (f64 * list nat)) :=
  [(0, (S754_finite false 7768709357214106 (-49), [])); (1, (S754_finite false 8204995571115622 (-47), [])); (2, (S754_finite false 7853151850227302 (-48), []))].
Theorem C98_max_score_refuted : exists l l', l ≡ₚ l' /\ NoDup l.*1 /\
  ti_max_score (new_info no_mime by_name (scored l) ∅) <> ti_max_score (new_info no_mime by_name (scored l') ∅).
Proof.
  exists three, (drop 1 three ++ take 1 three). split; [|split; [apply (bool_decide_unpack _); vm_compute; exact Logic.I|by vm_compute]].
  rewrite <- (take_drop 1 three) at 1. apply Permutation_app_comm.
Qed.
Print Assumptions C98_max_score_refuted.
(** The files are looked for in the directory that is called as the task.  Two tasks whose names are the directories of each
    other get the files of each other *)
Definition swapped : files := list_to_map [(["x"], FDir); (["x"; "att"], FDir); (["x"; "att"; "a.txt"], FFile [1%N]); (["y"], FDir); (["y"; "att"], FDir); (["y"; "att"; "a.txt"], FFile [2%N]); ([], FDir)].
Definition swapped_tasks : list info_task := [InfoTask ["x"] "y" "" None None [] []; InfoTask ["y"] "x" "" None None [] []].
Theorem C98_directory_refuted : exists tr f', copy_main no_mime by_name (fun _ f => Some f) (fun _ => Some swapped_tasks) swapped = Some (tr, f') /\
  f' !! [competition; "y"; "a.txt"] = Some (FFile [2%N]) /\ f' !! [competition; "x"; "a.txt"] = Some (FFile [1%N]).
Proof. do 2 eexists. split; [by vm_compute|]. by vm_compute. Qed.
Print Assumptions C98_directory_refuted.
(** and with another directory the program fails *)
Theorem C98_renamed_refuted : copy_main no_mime by_name (fun _ f => Some f) (fun _ => Some [InfoTask ["x"] "z" "" None None [] []]) swapped = None.
Proof. by vm_compute. Qed.
Print Assumptions C98_renamed_refuted.
(** Two files with the same base name: only the last one is there *)
Definition twice : files := list_to_map [([], FDir); (["x"], FDir); (["x"; "att"], FDir); (["x"; "att"; "english.pdf"], FFile [1%N]); (["x"; "statement"], FDir); (["x"; "statement"; "english.pdf"], FFile [2%N])].
Theorem C98_base_name_refuted : exists tr f', copy_main no_mime by_name (fun _ f => Some f) (fun _ => Some [InfoTask ["x"] "x" "" None None [] [("english", ["x"; "statement"; "english.pdf"])]]) twice = Some (tr, f') /\
  f' !! [competition; "x"; "english.pdf"] = Some (FFile [1%N]).
Proof. do 2 eexists. split; [by vm_compute|]. by vm_compute. Qed.
Print Assumptions C98_base_name_refuted.
(** What was there before stays there *)
Theorem C98_stale_refuted : exists tr f', copy_main no_mime by_name (fun _ f => Some f) (fun _ => Some [InfoTask ["x"] "x" "" None None [] []])
    (<[[competition] := FDir]> (<[[competition; "x"] := FDir]> (<[[competition; "x"; "old.txt"] := FFile []]> swapped))) = Some (tr, f') /\
  f' !! [competition; "x"; "old.txt"] = Some (FFile []).
Proof. do 2 eexists. split; [by vm_compute|]. by vm_compute. Qed.
Print Assumptions C98_stale_refuted.
Example C98_listing_example : lists (fun f d => omap (fun kv => match last kv.1 with Some n => if decide (kv.1 = d ++ [n]) then Some n else None | None => None end) (map_to_list f)).
Proof.
  intros f d. split.
  - assert (forall l : list (fpath * fnode), NoDup l.*1 -> NoDup (omap (fun kv : fpath * fnode => match last kv.1 with Some n => if decide (kv.1 = d ++ [n]) then Some n else None | None => None end) l)) as H.
    { induction l as [|[p v] l IH]; cbn; intros H; [constructor|]. apply NoDup_cons in H as [H1 H2]. destruct (last p) as [n|] eqn:E; [|by apply IH]. case_decide as Hd; [|by apply IH].
      constructor; [|by apply IH]. intros Hn. apply elem_of_list_omap in Hn as ([q w] & Hq & Hq'). cbn in Hq'. destruct (last q) as [m|]; [|done]. case_decide as Hm; [|done]. injection Hq' as ->.
      apply H1. apply elem_of_list_fmap. exists (q, w). split; [cbn; congruence|done]. }
    apply H, NoDup_fst_map_to_list.
  - intros n. rewrite elem_of_list_omap. split.
    + intros ([p v] & Hp & H). apply elem_of_map_to_list in Hp. cbn in H. destruct (last p) as [m|]; [|done]. case_decide as Hm; [|done]. injection H as ->. subst p. by exists v.
    + intros (v & Hv). exists (d ++ [n], v). rewrite elem_of_map_to_list. split; [done|]. cbn. rewrite last_snoc. by rewrite decide_True.
Qed.
