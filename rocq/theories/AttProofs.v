(** * AttProofs: the listing of att/ and the numbers of the samples *)
From Verif Require Export AttModel AttSpec FindSpec LangSpec.
From Verif Require Import FindProofs FindProofs2 FindProofs3 LangProofs LangProofs2 LangProofs3 BuildProofs.
From Coq Require Import Ascii String NArith.
From stdpp Require Import base list sorting gmap.
Local Open Scope nat_scope.

(** ** Paths *)
Lemma strip_comps_app p q : strip_comps p (p ++ q) = Some q.
Proof. induction p as [|a p IH]; [done|]. cbn. by rewrite decide_True by done. Qed.
Lemma strip_comps_Some p l q : strip_comps p l = Some q -> l = p ++ q.
Proof.
  revert l. induction p as [|a p IH]; intros l; cbn; [by intros [= ->]|]. destruct l as [|b l]; [done|]. case_decide; [|done]. subst. intros H. cbn. by rewrite (IH _ H).
Qed.
Lemma path_of_under task r : path_of task (FPath (p_abs task) (p_comps task ++ r)) = FPath false r.
Proof. unfold path_of. cbn [p_abs p_comps]. rewrite bool_decide_true by done. by rewrite strip_comps_app. Qed.
Lemma path_of_child task dir n : path_of task (child (child task dir) n) = FPath false [dir; n].
Proof. rewrite <- (path_of_under task [dir; n]). unfold child. cbn [p_abs p_comps]. by rewrite <- app_assoc. Qed.
Lemma path_of_att task n : path_of task (att task n) = att_rel n.
Proof. apply path_of_child. Qed.
Lemma att_inj task n m : att task n = att task m -> n = m.
Proof. apply child_inj. Qed.
Lemma att_rel_inj n m : att_rel n = att_rel m -> n = m.
Proof. by intros [= ->]. Qed.
Lemma concat_snoc sep l x : l <> [] -> String.concat sep (l ++ [x]) = String.concat sep l +:+ sep +:+ x.
Proof.
  induction l as [|a l IH]; [done|]. intros _. destruct l as [|b l]; [done|].
  change (String.concat sep ((a :: b :: l) ++ [x])) with (a +:+ sep +:+ String.concat sep ((b :: l) ++ [x])). rewrite IH by done.
  change (String.concat sep (a :: b :: l)) with (a +:+ sep +:+ String.concat sep (b :: l)). generalize (String.concat sep (b :: l)). intros y.
  apply chars_inj. by rewrite !chars_app, <- !app_assoc.
Qed.
Lemma show_path_child p n : p_comps p <> [] -> exists pre, chars (show_path (child p n)) = pre ++ "/"%char :: chars n.
Proof.
  intros Hp. unfold show_path, child. cbn [p_abs p_comps]. rewrite concat_snoc by done.
  exists (chars (if p_abs p then "/" else "") ++ chars (String.concat "/" (p_comps p))). rewrite !chars_app, <- app_assoc. done.
Qed.

(** ** The patterns *)
Lemma chars_cat l : forall a b, l = a ++ b <-> string_of_list_ascii l = string_of_list_ascii a +:+ string_of_list_ascii b.
Proof.
  intros a b. split; [intros ->|intros H].
  - apply chars_inj. by rewrite chars_app, !chars_string.
  - apply (f_equal chars) in H. by rewrite chars_app, !chars_string in H.
Qed.
Definition about_pattern (w : string) : list tok := TStar :: map TChar (chars w) ++ TStar :: map TChar (chars ".txt").
Lemma about_chars w n : about w n <-> exists a b, chars n = a ++ chars w ++ b ++ chars ".txt".
Proof.
  split.
  - intros (a & b & ->). exists (chars a), (chars b). by rewrite !chars_app.
  - intros (a & b & H). exists (string_of_list_ascii a), (string_of_list_ascii b). apply chars_inj. by rewrite !chars_app, !chars_string.
Qed.
Lemma about_match w n : tok_match (about_pattern w) (chars n) = true <-> about w n.
Proof.
  unfold about_pattern. rewrite star_spec, about_chars. setoid_rewrite lit_spec. setoid_rewrite star_spec.
  assert (forall b, tok_match (map TChar (chars ".txt")) b = true <-> b = chars ".txt") as Hl.
  { intros b. rewrite <- (app_nil_r (map TChar (chars ".txt"))), lit_spec. split.
    - intros (c & -> & H). destruct c; [by rewrite app_nil_r|done].
    - intros ->. exists []. by rewrite app_nil_r. }
  setoid_rewrite Hl. split.
  - intros (a & b & H & c & -> & e & f & -> & ->). exists a, e. done.
  - intros (a & b & H). exists a, (chars w ++ b ++ chars ".txt"). split; [done|]. eexists. split; [done|]. by eexists _, _.
Qed.
Definition att_files (d : att_disk) (task : fpath) (w : string) : list string := matching (ad_tree d) (child task "att") (about_pattern w).
Lemma att_files_spec d task w n : n ∈ att_files d task w <-> entry (ad_tree d) (child task "att") n /\ about w n.
Proof. unfold att_files. by rewrite matching_spec, about_match. Qed.
Lemma literal_app_star a b : literal (map TChar a ++ TStar :: b) = None.
Proof. induction a as [|x a IH]; [done|]. simpl. by rewrite IH. Qed.
Lemma glob_att d task w pat : good_tree (ad_tree d) -> ordinary task -> pat <> "." -> pattern_of pat = Some (about_pattern w) ->
  fpath_of (chars ("att/" +:+ pat)) = FPath false ["att"; pat] ->
  glob (ad_tree d) (fjoin task (fpath_of (chars ("att/" +:+ pat)))) = Some (map (att task) (att_files d task w)).
Proof.
  intros Hg Ho Hp Hpat Hf. rewrite Hf. unfold fjoin. cbn [p_abs p_comps].
  rewrite !filter_cons_True, filter_nil by done.
  rewrite (glob_dir (ad_tree d) task "att" pat (about_pattern w)); try done. plain_literal.
Qed.
Lemma files_input d task : good_tree (ad_tree d) -> ordinary task -> files_of d task ["att/*input*.txt"] = map (att task) (att_files d task "input").
Proof.
  intros Hg Ho. unfold files_of. erewrite lf_cons; [|by apply (glob_att d task "input" "*input*.txt")|apply lf_nil]. by rewrite app_nil_r.
Qed.
Lemma files_output d task : good_tree (ad_tree d) -> ordinary task -> files_of d task ["att/*output*.txt"] = map (att task) (att_files d task "output").
Proof.
  intros Hg Ho. unfold files_of. erewrite lf_cons; [|by apply (glob_att d task "output" "*output*.txt")|apply lf_nil]. by rewrite app_nil_r.
Qed.
Lemma files_samples d task : good_tree (ad_tree d) -> ordinary task ->
  files_of d task ["att/*input*.txt"; "att/*output*.txt"] = map (att task) (att_files d task "input" ++ att_files d task "output").
Proof.
  intros Hg Ho. unfold files_of. erewrite lf_cons; [|by apply (glob_att d task "input" "*input*.txt")|].
  2: { eapply lf_cons; [by apply (glob_att d task "output" "*output*.txt")|apply lf_nil]. }
  by rewrite app_nil_r, map_app.
Qed.

(** ** The numbers *)
Lemma digit_char_spec c : is_digit c = true <-> exists v, v < 10 /\ c = digit_char v.
Proof.
  unfold is_digit, digit_char. rewrite andb_true_iff, !bool_decide_eq_true. split.
  - intros [H1 H2]. exists (nat_of_ascii c - 48). split; [lia|]. replace (48 + (nat_of_ascii c - 48)) with (nat_of_ascii c) by lia. by rewrite ascii_nat_embedding.
  - intros (v & Hv & ->). rewrite nat_ascii_embedding by lia. lia.
Qed.
Lemma digit_value v : v < 10 -> nat_of_ascii (digit_char v) - 48 = v.
Proof. intros H. unfold digit_char. rewrite nat_ascii_embedding by lia. lia. Qed.
Lemma decimal_spec l n : decimal l n <-> l <> [] /\ Forall (fun c => is_digit c = true) l /\ number_of l = n.
Proof.
  split.
  - induction 1 as [v Hv|l n v _ (H1 & H2 & H3) Hv].
    + split_and!; [done|repeat constructor; apply digit_char_spec; eauto|]. unfold number_of. cbn [fold_left]. rewrite digit_value by done. lia.
    + split_and!; [by destruct l|apply Forall_app; split; [done|]; repeat constructor; apply digit_char_spec; eauto|].
      unfold number_of in *. rewrite fold_left_app. cbn [fold_left]. rewrite H3, digit_value by done. done.
  - intros (H1 & H2 & <-). revert H1 H2. induction l as [|c l IH] using rev_ind; [done|]. intros _ [Hl Hc]%Forall_app.
    apply Forall_cons in Hc as [Hc _]. apply digit_char_spec in Hc as (v & Hv & ->). unfold number_of. rewrite fold_left_app. cbn [fold_left]. rewrite digit_value by done.
    destruct (decide (l = [])) as [->|Hn]; [by apply decimal_one|]. apply decimal_more; [|done]. by apply IH.
Qed.
Lemma span_spec f l a b : span f l = (a, b) -> l = a ++ b /\ Forall (fun c => f c = true) a /\ match b with c :: _ => f c = false | [] => True end.
Proof.
  revert a b. induction l as [|c l IH]; intros a b; cbn; [by intros [= <- <-]|]. destruct (f c) eqn:E; [|by intros [= <- <-]].
  destruct (span f l) as [a' b']. intros [= <- <-]. destruct (IH a' b' eq_refl) as (-> & H1 & H2). split_and!; [done|by constructor|done].
Qed.
Definition numbered (l : text) (k : N) : Prop :=
  (k < 2 ^ 32)%N /\ exists pre w ds, w ∈ ["input"; "output"] /\ decimal ds k /\ l = pre ++ chars w ++ ds ++ chars ".txt".
Lemma extract_num_spec l k : extract_num l = Some k <-> numbered l k.
Proof.
  unfold extract_num, numbered. split.
  - destruct (strip_start _ (rev l)) as [r|] eqn:E; [|done]. apply strip_start_Some in E.
    destruct (span is_digit r) as [ds r'] eqn:Es. apply span_spec in Es as (-> & Hd & _).
    destruct (decide (ds = [])) as [->|Hn]; [done|].
    assert (l = rev r' ++ rev ds ++ chars ".txt") as ->.
    { rewrite <- (rev_involutive l), E, !rev_app_distr, rev_involutive. by rewrite app_assoc. }
    destruct (parse_u32 (rev ds)) as [n|] eqn:Ep; [|by destruct ds; [done|]; destruct (strip_start (rev (chars "input")) r'), (strip_start (rev (chars "output")) r')].
    intros H. assert ((is_Some (strip_start (rev (chars "input")) r') \/ is_Some (strip_start (rev (chars "output")) r')) /\ n = k) as [Hw ->].
    { destruct ds; [done|]. destruct (strip_start (rev (chars "input")) r'), (strip_start (rev (chars "output")) r'); try done; injection H as ->; eauto. }
    unfold parse_u32 in Ep. destruct (_ <? _)%N eqn:El; [|done]. injection Ep as Ep. split; [apply N.ltb_lt in El; by rewrite Ep in El|].
    assert (decimal (rev ds) k) as Hdec.
    { apply decimal_spec. split_and!; [|by apply Forall_rev|done]. intros E2. apply Hn. by apply (f_equal (@rev _)) in E2; rewrite rev_involutive in E2. }
    destruct Hw as [[x Hx]|[x Hx]]; apply strip_start_Some in Hx; subst r'; rewrite rev_app_distr, rev_involutive;
      [exists (rev x), "input", (rev ds)|exists (rev x), "output", (rev ds)]; (split_and!; [set_solver|done|by rewrite <- app_assoc]).
  - intros (Hk & pre & w & ds & Hw & Hdec & ->).
    rewrite !rev_app_distr, <- !app_assoc, strip_start_app. apply decimal_spec in Hdec as (Hn & Hd & Hv).
    assert (exists c r, rev (chars w) ++ rev pre = c :: r /\ is_digit c = false) as (c & r & Ew & Hc).
    { apply elem_of_cons in Hw as [->|Hw%elem_of_list_singleton]; [|subst w]; by eexists _, _. }
    rewrite span_app; [|by apply Forall_rev|by rewrite Ew].
    assert (parse_u32 (rev (rev ds)) = Some k) as Hp. { rewrite rev_involutive. unfold parse_u32. rewrite Hv. by rewrite (proj2 (N.ltb_lt _ _)). }
    destruct (rev ds) as [|x xs] eqn:Er; [apply (f_equal (@rev _)) in Er; by rewrite rev_involutive in Er|].
    apply elem_of_cons in Hw as [->|Hw%elem_of_list_singleton]; [|subst w]; rewrite strip_start_app.
    + exact Hp.
    + by destruct (strip_start (rev (chars "input")) (rev (chars "output") ++ rev pre)).
Qed.
Lemma numbered_name n k : numbered (chars n) k <-> sample_number n k.
Proof.
  unfold numbered, sample_number. split; intros (Hk & pre & w & ds & Hw & Hd & E); split; try done.
  - exists (string_of_list_ascii pre), w, (string_of_list_ascii ds). rewrite chars_string. split_and!; [done|done|].
    apply chars_inj. by rewrite !chars_app, !chars_string.
  - exists (chars pre), w, (chars ds). split_and!; [done|done|]. subst n. by rewrite !chars_app.
Qed.
(** only the name of the file matters *)
Lemma numbered_in_dir pre l k : "/"%char ∉ l -> numbered (pre ++ "/"%char :: l) k <-> numbered l k.
Proof.
  intros Hs. unfold numbered. split; intros (Hk & q & w & ds & Hw & Hd & E); split; try done.
  - assert ("/"%char ∉ chars w ++ ds ++ chars ".txt") as Hn.
    { apply decimal_spec in Hd as (_ & Hd & _). rewrite !not_elem_of_app. split_and!.
      - apply elem_of_cons in Hw as [->|Hw%elem_of_list_singleton]; [|subst w]; apply (bool_decide_unpack _); vm_compute; exact Logic.I.
      - intros H. rewrite Forall_forall in Hd. by apply Hd in H.
      - apply (bool_decide_unpack _); vm_compute; exact Logic.I. }
    remember (chars w ++ ds ++ chars ".txt") as s eqn:Es.
    apply app_eq_inv in E as [(x & _ & E)|(x & _ & E)].
    + exfalso. apply Hn. rewrite E. set_solver.
    + destruct x as [|c x]; [exfalso; apply Hn; simpl in E; rewrite <- E; left|]. injection E as <- E. exists x, w, ds. by rewrite <- Es.
  - subst l. exists (pre ++ "/"%char :: q), w, ds. split_and!; [done|done|]. by rewrite <- app_assoc.
Qed.
Lemma att_number d task n k : good_tree (ad_tree d) -> entry (ad_tree d) (child task "att") n ->
  extract_num (chars (show_path (att task n))) = Some k <-> sample_number n k.
Proof.
  intros Hg (names & E & Hn). destruct (gt_names _ Hg _ _ E) as [_ Hp]. rewrite Forall_forall in Hp. destruct (Hp n Hn) as (_ & _ & _ & Hs).
  destruct (show_path_child (child task "att") n) as [pre Epre]; [apply child_comps|].
  unfold att. rewrite extract_num_spec, Epre, numbered_in_dir by done. apply numbered_name.
Qed.
