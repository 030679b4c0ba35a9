(** * FindProofs: the proofs about [FindModel] *)
From Verif Require Export FindModel FindSpec LangSpec.
From Verif Require Import LangProofs LangProofs2 LangProofs3.
From Coq Require Import Ascii String.
From stdpp Require Import base list sorting.
Local Open Scope nat_scope.

(** ** The order of the names *)
Lemma string_compare_trans a : forall b c, String.compare a b <> Gt -> String.compare b c <> Gt -> String.compare a c <> Gt.
Proof.
  induction a as [|x a IH]; intros [|y b] [|z c]; simpl; try done.
  unfold Ascii.compare. destruct (N.compare (N_of_ascii x) (N_of_ascii y)) eqn:E1; try done; intros H1;
    destruct (N.compare (N_of_ascii y) (N_of_ascii z)) eqn:E2; try done; intros H2.
  - apply N.compare_eq_iff in E1, E2. rewrite E1, E2, N.compare_refl. by eapply IH.
  - apply N.compare_eq_iff in E1. by rewrite E1, E2.
  - apply N.compare_eq_iff in E2. by rewrite <- E2, E1.
  - apply N.compare_lt_iff in E1, E2. assert (N.compare (N_of_ascii x) (N_of_ascii z) = Lt) as -> by (apply N.compare_lt_iff; by etransitivity). done.
Qed.
Lemma name_le_compare a b : name_le a b <-> String.compare a b <> Gt.
Proof. unfold name_le, String.leb. destruct (String.compare a b); split; done. Qed.
Global Instance name_le_trans : Transitive name_le.
Proof. intros a b c. rewrite !name_le_compare. apply string_compare_trans. Qed.
Global Instance name_le_total : Total name_le.
Proof. intros a b. unfold name_le. destruct (String.leb_total a b); auto. Qed.
Global Instance name_le_antisym : AntiSymm eq name_le.
Proof. intros a b H1 H2. by apply String.leb_antisym. Qed.
Global Instance name_le_refl : Reflexive name_le.
Proof. intros a. destruct (name_le_total a a); done. Qed.

(** ** Patterns *)
Lemma parse_plain n l : length l <= n -> Forall (fun c => c <> "?"%char /\ c <> "*"%char /\ c <> "["%char) l -> parse_pattern n l = Some (map TChar l).
Proof.
  revert l. induction n as [|n IH]; intros [|c l] Hn H; try done; [by simpl in Hn; lia|].
  apply Forall_cons in H as [(H1 & H2 & H3) H]. cbn [parse_pattern].
  rewrite !decide_False by done. rewrite IH by (simpl in Hn; lia || done). done.
Qed.
Lemma chars_length s : length (chars s) = String.length s.
Proof. induction s; simpl; [done|]. f_equal. done. Qed.
Lemma pattern_plain s : no_special s -> pattern_of s = Some (map TChar (chars s)).
Proof. intros H. apply parse_plain; [by rewrite chars_length|done]. Qed.
Lemma literal_plain l : literal (map TChar l) = Some l.
Proof. induction l as [|c l IH]; simpl; [done|]. by rewrite IH. Qed.
Lemma mapM_plain cs : Forall (fun c => no_special c /\ c <> ".") cs -> mapM pattern_of cs = Some (map (fun c => map TChar (chars c)) cs).
Proof. induction 1 as [|c cs [H _] _ IH]; simpl; [done|]. by rewrite (pattern_plain c H), IH. Qed.
Lemma filter_ordinary cs : Forall (fun c => no_special c /\ c <> ".") cs -> filter (fun c => c <> ".") cs = cs.
Proof. induction 1 as [|c cs [_ H] _ IH]; [done|]. by rewrite filter_cons_True, IH. Qed.
Lemma star_spec ts l : tok_match (TStar :: ts) l = true <-> exists a b, l = a ++ b /\ tok_match ts b = true.
Proof.
  cbn [tok_match]. split.
  - induction l as [|c l IH]; intros H; apply orb_true_iff in H as [H|H]; try done.
    + by exists [], [].
    + by exists [], (c :: l).
    + destruct (IH H) as (a & b & -> & Hb). by exists (c :: a), b.
  - intros (a & b & -> & Hb). induction a as [|c a IH].
    + simpl app. destruct b; cbn; by rewrite Hb.
    + simpl app. apply orb_true_iff. by right.
Qed.
Lemma char_spec c ts l : tok_match (TChar c :: ts) l = true <-> exists b, l = c :: b /\ tok_match ts b = true.
Proof.
  cbn [tok_match]. destruct l as [|x l]; [split; [done|by intros (? & ? & _)]|].
  rewrite andb_true_iff, bool_decide_eq_true. split; [intros [-> H]; by exists l|intros (b & [= -> ->] & H); done].
Qed.
Lemma lit_spec s ts l : tok_match (map TChar s ++ ts) l = true <-> exists b, l = s ++ b /\ tok_match ts b = true.
Proof.
  revert l. induction s as [|c s IH]; intros l.
  - simpl. split; [by exists l|by intros (b & -> & H)].
  - simpl map. simpl app. rewrite char_spec. split.
    + intros (b & -> & H). apply IH in H as (b' & -> & H). by exists b'.
    + intros (b & -> & H). exists (s ++ b). split; [done|]. apply IH. by exists b.
Qed.
Lemma star_last l : tok_match [TStar] l = true.
Proof. apply star_spec. exists l, []. by rewrite app_nil_r. Qed.

(** ** Globbing in a directory *)
Lemma child_comps p n : p_comps (child p n) <> [].
Proof. simpl. by destruct (p_comps p). Qed.
Lemma glob_prefix d a pre cs rest : good_tree d -> cs <> [] ->
  glob_in d (FPath a pre) (map (fun c => map TChar (chars c)) cs ++ rest) =
  if stat d (FPath a (pre ++ cs)) then glob_in d (FPath a (pre ++ cs)) rest else [].
Proof.
  intros Hg. revert pre. induction cs as [|c cs IH]; intros pre Hn; [done|]. simpl map. simpl app. cbn [glob_in].
  rewrite literal_plain, string_chars. unfold child. cbn [p_abs p_comps].
  destruct (decide (cs = [])) as [->|Hcs]; [done|].
  rewrite IH by done. rewrite <- app_assoc. simpl app.
  destruct (stat d (FPath a (pre ++ [c]))) eqn:E; [done|].
  destruct (stat d (FPath a (pre ++ c :: cs))) eqn:E2; [|done]. exfalso.
  assert (forall cs, stat d (FPath a (pre ++ c :: cs)) = true -> stat d (FPath a (pre ++ [c])) = true) as Hp.
  { clear -Hg. intros cs. induction cs as [|x cs IH] using rev_ind; [done|]. intros H. apply IH.
    apply (gt_parent d Hg (FPath a (pre ++ c :: cs)) x); [|by destruct pre].
    unfold child. cbn [p_abs p_comps]. by rewrite <- app_assoc. }
  apply Hp in E2. congruence.
Qed.
(** the files of a directory matching a pattern *)
Definition matching (d : tree) (dir : fpath) (p : list tok) : list string :=
  match ls d dir with Some names => merge_sort name_le (filter (fun c => tok_match p (chars c) = true) names) | None => [] end.
Lemma bind_singleton {A B} (f : A -> B) l : (l ≫= fun x => [f x]) = map f l.
Proof. induction l as [|x l IH]; [done|]. cbn [mbind list_bind map]. simpl. by rewrite IH. Qed.
Lemma glob_dir d task (dir pat : string) ts : good_tree d -> ordinary task -> no_special dir -> dir <> "." -> pat <> "." ->
  pattern_of pat = Some ts -> literal ts = None ->
  glob d (FPath (p_abs task) (p_comps task ++ [dir; pat])) = Some (map (child (child task dir)) (matching d (child task dir) ts)).
Proof.
  intros Hg Ho Hd Hdot Hpd Hp Hl. unfold glob. cbn [p_abs p_comps].
  assert (Forall (fun c => no_special c /\ c <> ".") (p_comps task ++ [dir])) as Ho2. { apply Forall_app. split; [exact Ho|]. by constructor. }
  replace (p_comps task ++ [dir; pat]) with ((p_comps task ++ [dir]) ++ [pat]) by by rewrite <- app_assoc.
  rewrite filter_app, (filter_ordinary _ Ho2), filter_cons_True, filter_nil by done.
  assert (mapM pattern_of ((p_comps task ++ [dir]) ++ [pat]) = Some (map (fun c => map TChar (chars c)) (p_comps task ++ [dir]) ++ [ts])) as ->.
  { apply mapM_Some. apply mapM_plain, mapM_Some in Ho2. apply Forall2_app; [done|]. by repeat constructor. }
  f_equal. rewrite (glob_prefix d (p_abs task) [] (p_comps task ++ [dir]) [ts] Hg) by by destruct (p_comps task).
  rewrite app_nil_l. change (FPath (p_abs task) (p_comps task ++ [dir])) with (child task dir).
  cbn [glob_in]. rewrite Hl. unfold matching.
  destruct (ls d (child task dir)) as [names|] eqn:E.
  - rewrite (gt_dir d Hg _ _ E) by apply child_comps.
    apply (bind_singleton (child (child task dir))).
  - by destruct (stat d (child task dir)).
Qed.
(** a file that is named *)
Lemma glob_named d task (dir n : string) : good_tree d -> ordinary task -> no_special dir -> dir <> "." -> no_special n -> n <> "." ->
  glob d (FPath (p_abs task) (p_comps task ++ [dir; n])) = Some (if stat d (child (child task dir) n) then [child (child task dir) n] else []).
Proof.
  intros Hg Ho Hd Hdot Hs Hn. unfold glob. cbn [p_abs p_comps].
  assert (Forall (fun c => no_special c /\ c <> ".") (p_comps task ++ [dir; n])) as Ho2. { apply Forall_app. split; [exact Ho|]. by repeat constructor. }
  rewrite (filter_ordinary _ Ho2), (mapM_plain _ Ho2). f_equal.
  rewrite <- (app_nil_r (map _ _)), (glob_prefix d _ [] _ [] Hg) by by destruct (p_comps task).
  rewrite app_nil_l. unfold child. cbn [p_abs p_comps glob_in]. by rewrite <- app_assoc.
Qed.

Lemma matching_spec d dir ts n : n ∈ matching d dir ts <-> entry d dir n /\ tok_match ts (chars n) = true.
Proof.
  unfold matching, entry. destruct (ls d dir) as [names|].
  - rewrite merge_sort_Permutation, elem_of_list_filter. naive_solver.
  - split; [by intros ?%elem_of_nil|naive_solver].
Qed.
Lemma matching_NoDup d dir ts : good_tree d -> NoDup (matching d dir ts).
Proof.
  intros Hg. unfold matching. destruct (ls d dir) as [names|] eqn:E; [|constructor].
  rewrite merge_sort_Permutation. apply NoDup_filter. by apply (gt_names d Hg) in E as [? _].
Qed.
Lemma matching_sorted d dir ts : StronglySorted name_le (matching d dir ts).
Proof. unfold matching. destruct (ls d dir); [|constructor]. apply (StronglySorted_merge_sort name_le). Qed.
Lemma matching_plain d dir ts n : good_tree d -> n ∈ matching d dir ts -> plain n.
Proof.
  intros Hg [(names & E & Hn) _]%matching_spec. destruct (gt_names d Hg _ _ E) as [_ H]. rewrite Forall_forall in H. by apply H.
Qed.
Lemma child_inj p n m : child p n = child p m -> n = m.
Proof. unfold child. intros [= H]. by apply app_inj_tail in H as [_ ?]. Qed.
Lemma child_eq p q n m : child p n = child q m -> p = q /\ n = m.
Proof. unfold child. intros [= H0 H]. apply app_inj_tail in H as [H ?]. split; [|done]. destruct p, q. simpl in *. congruence. Qed.
Lemma file_name_child p n : plain n -> file_name (child p n) = Some n.
Proof. intros (H1 & H2 & _). unfold file_name, child. cbn [p_comps]. rewrite last_snoc. rewrite decide_False; [done|]. intros [?|?]; done. Qed.

Lemma NoDup_map_child p l : NoDup l -> NoDup (map (child p) l).
Proof. intros H. apply NoDup_fmap_2_strong; [|done]. intros ? ? _ _. apply child_inj. Qed.

(** ** Listing in another order *)
Lemma same_matching d1 d2 dir ts : same_tree d1 d2 -> matching d1 dir ts = matching d2 dir ts.
Proof.
  intros (H & _ & _). specialize (H dir). unfold matching. destruct (ls d1 dir) as [l1|], (ls d2 dir) as [l2|]; try done.
  apply (StronglySorted_unique name_le); try apply (StronglySorted_merge_sort name_le).
  rewrite !merge_sort_Permutation. by apply filter_Permutation.
Qed.
Lemma same_glob_in d1 d2 pats : same_tree d1 d2 -> forall dir, glob_in d1 dir pats = glob_in d2 dir pats.
Proof.
  intros Hs. pose proof Hs as (_ & H2 & _). induction pats as [|p pats IH]; intros dir; [done|]. cbn [glob_in].
  destruct (literal p) as [s|]; [by rewrite H2, IH|].
  pose proof (same_matching d1 d2 dir p Hs) as Hm. unfold matching in Hm.
  pose proof (proj1 Hs dir) as Hl.
  destruct (ls d1 dir) as [l1|], (ls d2 dir) as [l2|]; try done. rewrite Hm. clear Hm Hl.
  induction (merge_sort name_le (filter (fun c => tok_match p (chars c) = true) l2)) as [|n l IHl]; [done|].
  cbn [mbind list_bind]. rewrite IH. f_equal. exact IHl.
Qed.
Lemma same_glob d1 d2 p : same_tree d1 d2 -> glob d1 p = glob d2 p.
Proof. intros Hs. unfold glob. destruct (mapM _ _); [|done]. f_equal. by apply same_glob_in. Qed.
Lemma same_list_files d1 d2 cwd pats : same_tree d1 d2 -> list_files d1 cwd pats = list_files d2 cwd pats.
Proof.
  intros Hs. unfold list_files.
  assert (mapM (fun p => glob d1 (fjoin cwd (fpath_of (chars p)))) pats = mapM (fun p => glob d2 (fjoin cwd (fpath_of (chars p)))) pats) as ->; [|done].
  induction pats as [|p pats IH]; [done|]. cbn [mapM]. by rewrite (same_glob d1 d2 _ Hs), IH.
Qed.
Lemma same_pick d1 d2 c fs gs l : same_tree d1 d2 -> pick_solutions d1 c fs gs l = pick_solutions d2 c fs gs l.
Proof.
  intros (_ & H2 & H3). induction l as [|p l IH]; [done|]. cbn [pick_solutions]. rewrite H2, IH.
  unfold solution_new. by rewrite H3.
Qed.
Lemma same_find_solutions d1 d2 c base pats gs : same_tree d1 d2 -> find_solutions d1 c base pats gs = find_solutions d2 c base pats gs.
Proof.
  intros Hs. unfold find_solutions, solution_paths. rewrite (same_list_files d1 d2 _ _ Hs).
  destruct (ec_paths c); repeat case_match; try done; by apply same_pick.
Qed.
Lemma same_the_only d1 d2 cwd pats w : same_tree d1 d2 -> the_only d1 cwd pats w = the_only d2 cwd pats w.
Proof.
  intros Hs. unfold the_only, find_source_file. rewrite (same_list_files d1 d2 _ _ Hs).
  destruct (list_files d2 cwd pats) as [l|]; [|done].
  assert (filter (fun p => stat d1 p = true /\ is_Some (detect_language p)) l = filter (fun p => stat d2 p = true /\ is_Some (detect_language p)) l) as ->; [|done].
  apply list_filter_iff. intros p. by rewrite (proj1 (proj2 Hs)).
Qed.
Lemma same_clean d1 d2 task : same_tree d1 d2 -> terry_clean d1 task = terry_clean d2 task.
Proof.
  intros Hs. unfold terry_clean. rewrite !(same_list_files d1 d2 _ _ Hs).
  destruct (list_files d2 task ["managers/*.*"]) as [all|]; [|done]. destruct (list_files d2 task ["managers/*.*.*"]) as [maybe|]; [|done].
  rewrite (proj1 (proj2 Hs)).
  assert (forall ms l, clean_loop d1 ms l = clean_loop d2 ms l) as ->; [|done].
  intros ms l. induction l as [|p l IH]; [done|]. cbn [clean_loop]. rewrite IH. pose proof (proj1 Hs p) as Hp.
  destruct (ls d1 p), (ls d2 p); done.
Qed.
