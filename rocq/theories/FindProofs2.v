(** * FindProofs2: the solutions, the other programs, [clean] *)
From Verif Require Export FindProofs.
From Verif Require Import LangProofs LangProofs2 LangProofs3 BuildProofs.
From Coq Require Import Ascii String.
From stdpp Require Import base list sorting.
Local Open Scope nat_scope.

(** ** The files [dir/stem.*] *)
Lemma no_special_dec s : forallb (fun c => negb (bool_decide (c = "?"%char)) && negb (bool_decide (c = "*"%char)) && negb (bool_decide (c = "["%char))) (chars s) = true -> no_special s.
Proof.
  intros H. unfold no_special. apply Forall_forall. intros c Hc. rewrite forallb_forall in H. apply elem_of_list_In in Hc. specialize (H c Hc).
  rewrite !andb_true_iff, !negb_true_iff, !bool_decide_eq_false in H. naive_solver.
Qed.
Ltac plain_literal := by apply no_special_dec.
Lemma begins_chars s n : begins s n <-> exists b, chars n = chars s ++ b.
Proof.
  split.
  - intros (x & ->). exists (chars x). apply chars_app.
  - intros (b & H). exists (string_of_list_ascii b). rewrite <- (string_chars n), H. rewrite <- (string_chars s) at 2.
    rewrite <- (string_chars (string_of_list_ascii (chars s) +:+ _)). by rewrite chars_app, !chars_string.
Qed.
Lemma starts_spec p l : starts p l = true <-> exists b, l = p ++ b.
Proof.
  unfold starts. destruct (strip_start p l) as [b|] eqn:E.
  - apply strip_start_Some in E. split; [by exists b|done].
  - split; [done|]. intros (b & ->). by rewrite strip_start_app in E.
Qed.
(** the pattern [stem.*] *)
Lemma stem_match s n : tok_match (map TChar (chars s) ++ [TStar]) (chars n) = true <-> begins s n.
Proof.
  rewrite lit_spec, begins_chars. split; [intros (b & H & _); by exists b|intros (b & H); exists b; split; [done|apply star_last]].
Qed.
Definition star_files (d : tree) (task : fpath) (dir s : string) : list fpath :=
  map (child (child task dir)) (matching d (child task dir) (map TChar (chars s) ++ [TStar])).
Lemma star_files_spec d task dir s p : p ∈ star_files d task dir s <-> exists n, p = child (child task dir) n /\ begins s n /\ entry d (child task dir) n.
Proof.
  unfold star_files. rewrite elem_of_list_fmap. setoid_rewrite matching_spec. setoid_rewrite stem_match. naive_solver.
Qed.
Lemma star_files_NoDup d task dir s : good_tree d -> NoDup (star_files d task dir s).
Proof. intros Hg. apply NoDup_map_child. by apply matching_NoDup. Qed.
Lemma literal_star l : literal (map TChar l ++ [TStar]) = None.
Proof. induction l as [|c l IH]; [done|]. simpl. by rewrite IH. Qed.
Lemma glob_star d task (dir pat s : string) : good_tree d -> ordinary task -> no_special dir -> dir <> "." -> pat <> "." ->
  pattern_of pat = Some (map TChar (chars s) ++ [TStar]) -> glob d (FPath (p_abs task) (p_comps task ++ [dir; pat])) = Some (star_files d task dir s).
Proof. intros. rewrite (glob_dir d task dir pat (map TChar (chars s) ++ [TStar])); try done. apply literal_star. Qed.

Lemma lf_nil d task : list_files d task [] = Some [].
Proof. done. Qed.
Lemma lf_cons d task p ps l r : glob d (fjoin task (fpath_of (chars p))) = Some l -> list_files d task ps = Some r -> list_files d task (p :: ps) = Some (l ++ r).
Proof. unfold list_files. intros H1 H2. cbn [mapM]. rewrite H1. cbn [mbind option_bind]. destruct (mapM _ ps) as [x|]; [|done]. injection H2 as <-. done. Qed.

(** ** Choosing a program *)
Definition dest_of (task : fpath) (w : write_bin) (p : fpath) : fpath :=
  match w with WithoutExtension => without_extension p | WriteTo b => fjoin task (fpath_of (chars b)) end.
Lemma chosen_of d task pats w L (cand : fpath -> Prop) : list_files d task pats = Some L -> NoDup (filter (fun p => stat d p = true /\ is_Some (detect_language p)) L) ->
  (forall p, p ∈ L /\ program d p <-> cand p) -> chosen cand (dest_of task w) (the_only d task pats w).
Proof.
  intros HL Hn Hc. unfold the_only, find_source_file. rewrite HL. fold (dest_of task w).
  assert (forall p, p ∈ filter (fun p => stat d p = true /\ is_Some (detect_language p)) L <-> cand p) as Hf.
  { intros p. rewrite elem_of_list_filter, <- Hc. unfold program. tauto. }
  destruct (filter (fun p => stat d p = true /\ is_Some (detect_language p)) L) as [|p [|q l]].
  - cbn. intros p Hp. apply Hf in Hp. by apply elem_of_nil in Hp.
  - cbn. split; [apply Hf; left|]. split; [|by destruct w]. intros q Hq. apply Hf in Hq. by apply elem_of_list_singleton in Hq.
  - cbn [map fst chosen]. change (p :: q :: map fst (map (fun p => (p, _)) l)) with (map fst (map (fun p => (p, dest_of task w p)) (p :: q :: l))).
    rewrite map_map. cbn [fst]. rewrite map_id. split; [simpl; lia|]. done.
Qed.
(** a name without a dot after its first character has no language *)
Lemma no_language p n : file_name p = Some n -> "."%char ∉ chars n -> detect_language p = None.
Proof.
  intros Hn Hd. destruct (detect_language p) as [l|] eqn:E; [|done]. apply detect_spec in E as (m & ext & Hm & (st & _ & _ & E) & _).
  assert (m = n) by congruence. subst m. destruct Hd. rewrite E. set_solver.
Qed.
Lemma no_language_child task dir n : plain n -> "."%char ∉ chars n -> detect_language (child (child task dir) n) = None.
Proof. intros Hp. apply no_language. by apply file_name_child. Qed.

Lemma begins_disjoint s1 s2 n : strip_start (chars s1) (chars s2) = None -> strip_start (chars s2) (chars s1) = None -> begins s1 n -> begins s2 n -> False.
Proof.
  rewrite !begins_chars. intros H1 H2 (a & Ha) (b & Hb). rewrite Ha in Hb. clear Ha. revert a b H1 H2 Hb. generalize (chars s1) (chars s2). clear.
  intros l1. induction l1 as [|x l1 IH]; intros [|y l2] a b H1 H2 H; try done. cbn in *. injection H as -> H.
  rewrite !decide_True in * by done. by eapply IH.
Qed.

(** two places; then names without a language *)
Lemma chosen_two d task pats w (d1 s1 d2 s2 : string) X : good_tree d ->
  list_files d task pats = Some (star_files d task d1 (s1 +:+ ".") ++ star_files d task d2 (s2 +:+ ".") ++ X) ->
  (forall p, p ∈ X -> detect_language p = None) ->
  (d1 <> d2 \/ (strip_start (chars (s1 +:+ ".")) (chars (s2 +:+ ".")) = None /\ strip_start (chars (s2 +:+ ".")) (chars (s1 +:+ ".")) = None)) ->
  chosen (candidate d task [(d1, s1); (d2, s2)]) (dest_of task w) (the_only d task pats w).
Proof.
  intros Hg HL HX Hd. eapply chosen_of; [exact HL| |].
  - rewrite !filter_app. 
    assert (filter (fun p => stat d p = true /\ is_Some (detect_language p)) X = []) as ->.
    { clear -HX. induction X as [|x X IH]; [done|]. rewrite filter_cons_False; [apply IH; intros; apply HX; by right|].
      rewrite (HX x) by left. by intros [_ [? ?]]. }
    rewrite app_nil_r, <- filter_app. apply NoDup_filter, NoDup_app. split; [by apply star_files_NoDup|]. split; [|by apply star_files_NoDup].
    intros p Hp1 Hp2. apply star_files_spec in Hp1 as (n1 & -> & Hb1 & _). apply star_files_spec in Hp2 as (n2 & E & Hb2 & _).
    apply child_eq in E as [E <-]. apply child_inj in E. destruct Hd as [Hd|[H1 H2]]; [done|]. by eapply begins_disjoint.
  - intros p. rewrite !elem_of_app, !star_files_spec. unfold candidate. split.
    + intros [[H|[H|H]] Hp].
      * destruct H as (n & -> & Hb & He). exists d1, s1, n. split; [left|]. done.
      * destruct H as (n & -> & Hb & He). exists d2, s2, n. split; [right; left|]. done.
      * destruct Hp as [_ [l Hl]]. rewrite (HX _ H) in Hl. done.
    + intros (dir & s & n & Hin & -> & Hb & He & Hp). split; [|done].
      rewrite !elem_of_cons, elem_of_nil in Hin. destruct Hin as [[= -> ->]|[[= -> ->]|[]]]; [left|right; left]; by exists n.
Qed.
Lemma chosen_one d task pats w (d1 s1 : string) : good_tree d ->
  list_files d task pats = Some (star_files d task d1 (s1 +:+ ".")) ->
  chosen (candidate d task [(d1, s1)]) (dest_of task w) (the_only d task pats w).
Proof.
  intros Hg HL. eapply chosen_of; [exact HL| |].
  - apply NoDup_filter. by apply star_files_NoDup.
  - intros p. rewrite star_files_spec. unfold candidate. split.
    + intros [(n & -> & Hb & He) Hp]. exists d1, s1, n. split; [left|]. done.
    + intros (dir & s & n & Hin & -> & Hb & He & Hp). split; [|done].
      rewrite elem_of_list_singleton in Hin. injection Hin as -> ->. by exists n.
Qed.
Ltac star_step s := eapply lf_cons; [eapply (glob_star _ _ _ _ s); [done|done|plain_literal|done|done|reflexivity]|].
Definition named_file (d : tree) (task : fpath) (dir n : string) : list fpath := if stat d (child (child task dir) n) then [child (child task dir) n] else [].
Ltac named_step := eapply lf_cons; [eapply glob_named; [done|done|plain_literal|done|plain_literal|done]|].

Lemma plain_literal_dec n : bool_decide (n <> "." /\ n <> ".." /\ n <> "" /\ "/"%char ∉ chars n) = true -> plain n.
Proof. intros H. by apply bool_decide_eq_true in H. Qed.
Lemma named_none d task dir n p : plain n -> "."%char ∉ chars n ->
  p ∈ (if stat d (child (child task dir) n) then [child (child task dir) n] else []) -> detect_language p = None.
Proof.
  intros Hp Hd. destruct (stat d _); [|by intros ?%elem_of_nil]. intros ->%elem_of_list_singleton. by apply no_language_child.
Qed.
Ltac no_dot_dec := apply (bool_decide_unpack _); vm_compute; exact Logic.I.
Ltac role_two A B := eapply (chosen_two _ _ _ _ _ A _ B); [done| | |]; [star_step (A +:+ "."); star_step (B +:+ "."); repeat named_step; apply lf_nil
  | intros p Hp; rewrite ?elem_of_app in Hp; repeat (destruct Hp as [Hp|Hp]; [revert Hp; apply named_none; [by apply plain_literal_dec|no_dot_dec]|]); by apply elem_of_nil in Hp
  | ].
Lemma validator_spec d task : good_tree d -> ordinary task ->
  chosen (candidate d task [("gen", "validator"); ("gen", "valida")]) (dest_of task (WriteTo "bin/validator")) (detect_validator d task).
Proof. intros Hg Ho. role_two "validator" "valida". right. done. Qed.
Lemma official_spec d task : good_tree d -> ordinary task ->
  chosen (candidate d task [("sol", "solution"); ("sol", "soluzione")]) (dest_of task (WriteTo "bin/official_solution")) (detect_official d task).
Proof. intros Hg Ho. role_two "solution" "soluzione". right. done. Qed.
Lemma generator_spec d task : good_tree d -> ordinary task ->
  chosen (candidate d task [("gen", "generator"); ("gen", "generatore")]) (dest_of task (WriteTo "bin/generator")) (detect_generator d task).
Proof. intros Hg Ho. role_two "generator" "generatore". right. done. Qed.
Lemma checker_spec d task : good_tree d -> ordinary task ->
  chosen (candidate d task [("check", "checker"); ("cor", "correttore")]) (dest_of task WithoutExtension) (detect_checker d task).
Proof. intros Hg Ho. role_two "checker" "correttore". by left. Qed.
Lemma manager_spec d task : good_tree d -> ordinary task ->
  chosen (candidate d task [("check", "manager"); ("cor", "manager")]) (dest_of task WithoutExtension) (detect_manager d task).
Proof. intros Hg Ho. role_two "manager" "manager". by left. Qed.
Lemma terry_manager_spec d task exe m : good_tree d -> ordinary task -> m ∈ ["generator"; "validator"; "checker"; "solution"] ->
  chosen (candidate d task [("managers", m)]) (dest_of task (WriteTo ("managers/" +:+ m +:+ "." +:+ exe))) (get_manager d task exe m).
Proof.
  intros Hg Ho Hm. unfold get_manager. apply chosen_one; [done|]. rewrite <- (app_nil_r (star_files _ _ _ _)).
  rewrite !elem_of_cons, elem_of_nil in Hm. destruct Hm as [->|[->|[->|[->|[]]]]].
  - star_step "generator.". apply lf_nil.
  - star_step "validator.". apply lf_nil.
  - star_step "checker.". apply lf_nil.
  - star_step "solution.". apply lf_nil.
Qed.
