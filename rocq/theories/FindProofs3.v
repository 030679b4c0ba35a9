(** * FindProofs3: the solutions, [clean] *)
From Verif Require Export FindProofs2.
From Verif Require Import LangProofs LangProofs2 LangProofs3 BuildProofs.
From Coq Require Import Ascii String.
From stdpp Require Import base list sorting.
Local Open Scope nat_scope.

(** ** The solutions *)
Definition sol_ok (d : tree) (c : eval_config) (filters : list string) (graders : list fpath) (p : fpath) : bool :=
  negb (bool_decide (p ∈ graders)) && stat d p && readable d p && bool_decide (is_Some (detect_language p)) &&
  match ec_filter c with [] => true | _ => match file_name p with Some n => existsb (fun f => starts (chars f) (chars n)) filters | None => false end end.
Lemma pick_spec d c fs gs l : Forall (fun p => is_Some (file_name p)) l ->
  exists r, pick_solutions d c fs gs l = Some r /\ map fst r = filter (fun p => sol_ok d c fs gs p = true) l /\
    Forall (fun s => detect_language (fst s) = Some (snd s)) r.
Proof.
  induction 1 as [|p l [n Hn] _ (r & IH1 & IH2 & IH3)]; [by exists []|]. cbn [pick_solutions].
  destruct (sol_ok d c fs gs p) eqn:E.
  - unfold sol_ok in E. rewrite !andb_true_iff in E. destruct E as ((((E1 & E2) & E3) & E4) & E5).
    apply negb_true_iff in E1. rewrite E1, E2. cbn [negb].
    assert (passes_filter c fs p = Some true) as ->.
    { unfold passes_filter. destruct (ec_filter c); [done|]. rewrite Hn in E5 |- *. by rewrite E5. }
    apply bool_decide_eq_true in E4 as [lg E4]. unfold solution_new. rewrite Hn, E4, E3, IH1. exists ((p, lg) :: r). split; [done|]. split.
    + cbn [map fst]. rewrite filter_cons_True by (unfold sol_ok; rewrite E1, E2, E3, E4, E5; done). by rewrite IH2.
    + by constructor.
  - rewrite filter_cons_False by by rewrite E.
    assert (pick_solutions d c fs gs (p :: l) = pick_solutions d c fs gs l) as Hsame; [|cbn [pick_solutions] in Hsame; rewrite Hsame; by exists r].
    cbn [pick_solutions]. unfold sol_ok in E.
    destruct (bool_decide (p ∈ gs)); [done|]. destruct (stat d p); [|done]. cbn [negb andb] in *.
    unfold passes_filter, solution_new. rewrite Hn in *.
    destruct (ec_filter c) as [|f0 fs0].
    + destruct (detect_language p); [|done]. destruct (readable d p); [|done]. done.
    + destruct (existsb _ fs); [|done]. destruct (detect_language p); [|done]. destruct (readable d p); [|done]. done.
Qed.
Lemma Forall2_in_r {A B} (P : A -> B -> Prop) l k y : Forall2 P l k -> y ∈ k -> exists x, x ∈ l /\ P x y.
Proof. induction 1 as [|a b l k H1 _ IH]; [by intros ?%elem_of_nil|]. intros [->|H]%elem_of_cons; [exists a; split; [left|done]|]. destruct (IH H) as (x & ? & ?). exists x. split; [by right|done]. Qed.
Lemma Forall2_in_l {A B} (P : A -> B -> Prop) l k x : Forall2 P l k -> x ∈ l -> exists y, y ∈ k /\ P x y.
Proof. induction 1 as [|a b l k H1 _ IH]; [by intros ?%elem_of_nil|]. intros [->|H]%elem_of_cons; [exists b; split; [left|done]|]. destruct (IH H) as (y & ? & ?). exists y. split; [by right|done]. Qed.
Lemma filters_spec c n : valid_filter (ec_filter c) -> exists fs, solution_filters c = Some fs /\
  (match ec_filter c with [] => true | _ => existsb (fun f => starts (chars f) (chars n)) fs end = true <-> selected (ec_filter c) n).
Proof.
  intros Hv. unfold solution_filters. destruct (mapM (fun f => file_name (fpath_of (chars f))) (ec_filter c)) as [fs|] eqn:E.
  - exists fs. split; [done|]. apply mapM_Some in E. unfold selected. destruct (ec_filter c) as [|f0 l] eqn:Ec; [split; [by left|done]|].
    assert (ec_filter c <> []) as Hne by by rewrite Ec. rewrite <- Ec in *. clear Ec f0 l. rewrite existsb_exists. split.
    + intros (g & Hg%elem_of_list_In & Hs). right. destruct (Forall2_in_r _ _ _ _ E Hg) as (f & Hf & Hx). exists f, g. split; [done|]. split; [done|].
      apply begins_chars. by apply starts_spec.
    + intros [H|(f & g & Hf & Hg & Hb)]; [done|].
      destruct (Forall2_in_l _ _ _ _ E Hf) as (g' & Hg' & Hx). assert (g' = g) by congruence. subst g'. exists g. split; [by apply elem_of_list_In|].
      apply starts_spec. by apply begins_chars.
  - exfalso. apply mapM_None, Exists_exists in E as (f & Hf & Hn). unfold valid_filter in Hv. rewrite Forall_forall in Hv. destruct (Hv f Hf) as [? ?]. congruence.
Qed.
Lemma filters_total c : valid_filter (ec_filter c) -> exists fs, solution_filters c = Some fs.
Proof. intros Hv. destruct (filters_spec c "" Hv) as (fs & H & _). by exists fs. Qed.

Lemma star_file_names d task dir s : good_tree d -> Forall (fun p => is_Some (file_name p)) (star_files d task dir s).
Proof.
  intros Hg. apply Forall_forall. intros p Hp. unfold star_files in Hp. apply elem_of_list_fmap in Hp as (n & -> & Hn).
  rewrite file_name_child; [by eexists|]. by eapply matching_plain.
Qed.
(** a listing of solutions *)
Lemma find_listed d c task dir pats gs : good_tree d -> valid_filter (ec_filter c) -> ec_paths c = [] ->
  list_files d task pats = Some (star_files d task dir "") ->
  exists r names, find_solutions d c task pats gs = Some r /\ map fst r = map (child (child task dir)) names /\ StronglySorted name_le names /\ NoDup names /\
  forall p lg, (p, lg) ∈ r <-> exists n, p = child (child task dir) n /\ entry d (child task dir) n /\ stat d p = true /\ readable d p = true /\
     detect_language p = Some lg /\ p ∉ gs /\ selected (ec_filter c) n.
Proof.
  intros Hg Hv Hp HL. unfold find_solutions, solution_paths. rewrite Hp, HL. destruct (filters_total c Hv) as (fs & Hfs). rewrite Hfs.
  destruct (pick_spec d c fs gs (star_files d task dir "")) as (r & H1 & H2 & H3); [by apply star_file_names|].
  exists r. set (names := filter (fun n => sol_ok d c fs gs (child (child task dir) n) = true) (matching d (child task dir) (map TChar (chars "") ++ [TStar]))).
  exists names. split; [done|].
  assert (map fst r = map (child (child task dir)) names) as Hm.
  { rewrite H2. unfold names, star_files. clear. generalize (matching d (child task dir) (map TChar (chars "") ++ [TStar])). intros l.
    induction l as [|n l IH]; [done|]. cbn [map]. destruct (sol_ok d c fs gs (child (child task dir) n)) eqn:E.
    - rewrite !filter_cons_True by done. cbn [map]. by rewrite IH.
    - rewrite !filter_cons_False by by rewrite E. exact IH. }
  split; [done|]. split; [|split].
  - assert (forall l, StronglySorted name_le l -> StronglySorted name_le (filter (fun n => sol_ok d c fs gs (child (child task dir) n) = true) l)) as Hs; [|apply Hs, matching_sorted].
    clear. intros l. induction 1 as [|n l Hl IH Hf]; [constructor|]. rewrite filter_cons. case_decide; [|done]. constructor; [done|].
    apply Forall_forall. intros x [_ Hx]%elem_of_list_filter. rewrite Forall_forall in Hf. by apply Hf.
  - apply NoDup_filter. by apply matching_NoDup.
  - assert (forall p, p ∈ map fst r <-> p ∈ filter (fun p => sol_ok d c fs gs p = true) (star_files d task dir "")) as Hin by (intros p; by rewrite H2).
    assert (forall n, plain n -> (sol_ok d c fs gs (child (child task dir) n) = true <-> stat d (child (child task dir) n) = true /\ readable d (child (child task dir) n) = true /\
       is_Some (detect_language (child (child task dir) n)) /\ child (child task dir) n ∉ gs /\ selected (ec_filter c) n)) as Hok.
    { intros n Hpl. unfold sol_ok. rewrite file_name_child by done. rewrite !andb_true_iff, negb_true_iff, bool_decide_eq_false, bool_decide_eq_true.
      destruct (filters_spec c n Hv) as (fs' & Hfs' & Hsel). assert (fs' = fs) by congruence. subst fs'. rewrite Hsel. tauto. }
    intros p lg. split.
    + intros Hpl. rewrite Forall_forall in H3. pose proof (H3 _ Hpl) as Hlg. cbn [fst snd] in Hlg.
      assert (p ∈ map fst r) as Hpr by (apply elem_of_list_fmap; by exists (p, lg)).
      apply Hin, elem_of_list_filter in Hpr as [Hs Hps]. unfold star_files in Hps. apply elem_of_list_fmap in Hps as (n & -> & Hn).
      pose proof (matching_plain _ _ _ _ Hg Hn) as Hpn. apply matching_spec in Hn as [He _]. apply (Hok n Hpn) in Hs as (? & ? & ? & ? & ?). exists n. done.
    + intros (n & -> & He & Hst & Hr & Hlg & Hgs & Hsel).
      assert (n ∈ matching d (child task dir) (map TChar (chars "") ++ [TStar])) as Hn by (apply matching_spec; split; [done|]; apply stem_match; by exists n).
      pose proof (matching_plain _ _ _ _ Hg Hn) as Hpn.
      assert (child (child task dir) n ∈ map fst r) as Hpr.
      { apply Hin, elem_of_list_filter. split; [apply (Hok n Hpn); split_and!; try done; by eexists|]. unfold star_files. apply elem_of_list_fmap. by exists n. }
      apply elem_of_list_fmap in Hpr as ([p' lg'] & E & Hpr). cbn [fst] in E. subst p'. rewrite Forall_forall in H3. pose proof (H3 _ Hpr) as E. cbn [fst snd] in E.
      assert (lg' = lg) by congruence. by subst lg'.
Qed.
Lemma sol_star d task : good_tree d -> ordinary task -> list_files d task ["sol/*"] = Some (star_files d task "sol" "").
Proof. intros Hg Ho. rewrite <- (app_nil_r (star_files _ _ _ _)). star_step "". apply lf_nil. Qed.
Lemma solutions_star d task : good_tree d -> ordinary task -> list_files d task ["solutions/*"] = Some (star_files d task "solutions" "").
Proof. intros Hg Ho. rewrite <- (app_nil_r (star_files _ _ _ _)). star_step "". apply lf_nil. Qed.
Lemma grader_files d task : good_tree d -> ordinary task ->
  list_files d task ["sol/grader.*"; "sol/stub.*"] = Some (star_files d task "sol" "grader." ++ star_files d task "sol" "stub.").
Proof. intros Hg Ho. rewrite <- (app_nil_r (star_files _ _ _ "stub.")). star_step "grader.". star_step "stub.". apply lf_nil. Qed.

(** ** The graders in use *)
Lemma grader_map_sound gs m k f p : (k, (f, p)) ∈ grader_map gs m -> (f, p) ∈ gs \/ (k, (f, p)) ∈ m.
Proof.
  revert m. induction gs as [|[f0 g0] gs IH]; intros m; [by right|]. cbn [grader_map]. destruct (detect_language g0).
  - intros H. apply IH in H as [H|H]; [left; by right|]. apply ainsert_pair in H as [[-> [= -> ->]]|H]; [left; left|by right].
  - intros H. apply IH in H as [H|H]; [left; by right|by right].
Qed.
Lemma used_graders_sub l p : p ∈ used_graders l -> p ∈ l.
Proof.
  unfold used_graders, all_paths. intros ([k [f q]] & -> & H)%elem_of_list_fmap. cbn [snd]. apply grader_map_sound in H as [H|H]; [|by apply elem_of_nil in H].
  apply elem_of_list_fmap in H as (x & [= -> ->] & H). done.
Qed.
Lemma used_graders_all l p : (forall p q, p ∈ l -> q ∈ l -> is_Some (detect_language p) -> detect_language p = detect_language q -> p = q) ->
  p ∈ l -> is_Some (detect_language p) -> p ∈ used_graders l.
Proof.
  intros Hu Hp [lg Hlg]. unfold used_graders, all_paths.
  pose proof (grader_map_get (map (fun p => (1%positive, p)) l) [] lg) as H.
  destruct (last (graders_of lg (map (fun p => (1%positive, p)) l))) as [[f q]|] eqn:E.
  - assert ((f, q) ∈ graders_of lg (map (fun p => (1%positive, p)) l)) as Hin.
    { rewrite last_lookup in E. by apply elem_of_list_lookup_2 in E. }
    apply elem_of_list_filter in Hin as [Hq Hin]. cbn [snd] in Hq. apply elem_of_list_fmap in Hin as (x & [= -> ->] & Hx).
    assert (p = x) as <- by (apply Hu; [done|done|by exists lg|congruence]).
    apply aget_pair in H. apply elem_of_list_fmap. by exists (lang_name lg, (1%positive, p)).
  - exfalso. apply last_None in E. assert ((1%positive, p) ∈ graders_of lg (map (fun p => (1%positive, p)) l)) as Hin.
    { apply elem_of_list_filter. split; [done|]. apply elem_of_list_fmap. by exists p. }
    rewrite E in Hin. by apply elem_of_nil in Hin.
Qed.
Lemma graders_in_use d task p : good_tree d -> one_grader d task -> is_Some (detect_language p) ->
  (p ∈ used_graders (star_files d task "sol" "grader." ++ star_files d task "sol" "stub.") <->
   exists n, p = child (child task "sol") n /\ entry d (child task "sol") n /\ grader_name n).
Proof.
  intros Hg Hu Hl.
  assert (forall p, p ∈ star_files d task "sol" "grader." ++ star_files d task "sol" "stub." <-> exists n, p = child (child task "sol") n /\ entry d (child task "sol") n /\ grader_name n) as Hin.
  { clear p Hl. intros p. rewrite elem_of_app, !star_files_spec. unfold grader_name. naive_solver. }
  split; [intros H%used_graders_sub; by apply Hin|]. intros H. apply used_graders_all; [|by apply Hin|done].
  intros p1 p2 H1 H2 Hl1 He. apply Hin in H1 as (n1 & -> & He1 & Hg1). apply Hin in H2 as (n2 & -> & He2 & Hg2). f_equal. by eapply Hu.
Qed.

(** ** [clean] *)
Lemma chars_inj a b : chars a = chars b -> a = b.
Proof. intros H. rewrite <- (string_chars a), <- (string_chars b). by rewrite H. Qed.
Lemma dot_app a x : chars (a +:+ "." +:+ x) = chars a ++ "."%char :: chars x.
Proof. by rewrite !chars_app. Qed.
Lemma file_stem_dot a x : a <> "" -> no_dot x -> file_stem (a +:+ "." +:+ x) = a.
Proof.
  intros Ha Hx. unfold file_stem, stem_ext. rewrite dot_app.
  assert (last_dot (chars a ++ "."%char :: chars x) = Some (chars a, chars x)) as -> by by apply last_dot_Some.
  destruct (chars a) eqn:E; [by destruct a|]. cbn [fst]. by rewrite <- E, string_chars.
Qed.
Lemma file_stem_hidden y : no_dot y -> file_stem ("." +:+ y) = "." +:+ y.
Proof.
  intros Hy. unfold file_stem, stem_ext. 
  assert (last_dot (chars ("." +:+ y)) = Some ([], chars y)) as -> by by apply last_dot_Some. cbn [fst]. apply string_chars.
Qed.
(** a name with a dot *)
Lemma dot_cases m : "."%char ∈ chars m -> exists a x, m = a +:+ "." +:+ x /\ no_dot x.
Proof.
  intros H. destruct (last_dot (chars m)) as [[a x]|] eqn:E.
  - apply last_dot_Some in E as [E Hx]. exists (string_of_list_ascii a), (string_of_list_ascii x). split.
    + apply chars_inj. by rewrite dot_app, !chars_string.
    + unfold no_dot. by rewrite chars_string.
  - exfalso. clear -H E. induction (chars m) as [|c l IH]; [by apply elem_of_nil in H|]. cbn in E. destruct (last_dot l) as [[? ?]|] eqn:E2; [done|].
    apply elem_of_cons in H as [<-|H]; [done|by apply IH].
Qed.
Lemma stem_of_spec a m : "."%char ∈ chars m -> (file_stem m = a <-> stem_of a m).
Proof.
  intros Hm. unfold stem_of. split.
  - intros <-. destruct (dot_cases m Hm) as (a & x & -> & Hx). destruct (decide (a = "")) as [->|Ha].
    + right. change ("" +:+ "." +:+ x) with ("." +:+ x). rewrite file_stem_hidden by done. split; [done|]. by exists x.
    + left. exists x. by rewrite file_stem_dot.
  - intros [(x & -> & Ha & Hx)|(-> & y & -> & Hy)]; [by apply file_stem_dot|by apply file_stem_hidden].
Qed.
Lemma app_dot_inj a x b y : no_dot x -> no_dot y -> a +:+ "." +:+ x = b +:+ "." +:+ y -> a = b /\ x = y.
Proof.
  intros Hx Hy E. assert (last_dot (chars (a +:+ "." +:+ x)) = Some (chars a, chars x)) as H1 by (rewrite dot_app; by apply last_dot_Some).
  rewrite E in H1. rewrite dot_app in H1.
  assert (last_dot (chars b ++ "."%char :: chars y) = Some (chars b, chars y)) as H2 by by apply last_dot_Some.
  rewrite H1 in H2. injection H2 as H2 H3. split; by apply chars_inj.
Qed.
(** the patterns *)
Lemma two_match n : tok_match [TStar; TChar "."; TStar] (chars n) = true <-> "."%char ∈ chars n.
Proof.
  rewrite star_spec. setoid_rewrite char_spec. split.
  - intros (a & b & E & c & -> & _). rewrite E. set_solver.
  - intros (a & b & E)%elem_of_list_split. exists a, ("."%char :: b). split; [done|]. exists b. split; [done|]. apply star_last.
Qed.
Lemma three_match n : tok_match [TStar; TChar "."; TStar; TChar "."; TStar] (chars n) = true <-> exists u c, n = u +:+ "." +:+ c /\ no_dot c /\ "."%char ∈ chars u.
Proof.
  rewrite star_spec. setoid_rewrite char_spec. setoid_rewrite star_spec. setoid_rewrite char_spec. split.
  - intros (a & b & E & b' & -> & b2 & b3 & -> & b4 & -> & _).
    destruct (dot_cases n) as (u & c & -> & Hc); [rewrite E; set_solver|]. exists u, c. split; [done|]. split; [done|].
    rewrite dot_app in E. destruct (decide ("."%char ∈ chars u)) as [|Hu]; [done|]. exfalso.
    clear -E Hu Hc. unfold no_dot in Hc. revert E Hu. generalize (chars u). intros l. revert a. induction l as [|x l IH]; intros [|y a] E Hu; cbn in E.
    + injection E as E2. apply Hc. rewrite E2. set_solver.
    + injection E as E1 E2. apply Hc. rewrite E2. set_solver.
    + injection E as E1 E2. apply Hu. rewrite E1. left.
    + injection E as E1 E2. apply (IH a E2). set_solver.
  - intros (u & c & -> & Hc & (a & b & E)%elem_of_list_split). rewrite dot_app, E. exists a, ("."%char :: b ++ "."%char :: chars c). split; [by rewrite <- app_assoc|].
    exists (b ++ "."%char :: chars c). split; [done|]. exists b, ("."%char :: chars c). split; [done|]. exists (chars c). split; [done|]. apply star_last.
Qed.
Lemma clean_loop_spec d ms l r b : clean_loop d ms l = (r, b) ->
  (forall p, p ∈ r -> p ∈ l /\ exists n s, file_name p = Some n /\ double_stem n = Some s /\ s ∈ ms) /\
  (b = true -> forall p n s, p ∈ l -> file_name p = Some n -> double_stem n = Some s -> s ∈ ms -> p ∈ r) /\
  ((forall p, p ∈ l -> exists n s, file_name p = Some n /\ double_stem n = Some s /\ (s ∈ ms -> ls d p = None)) -> b = true).
Proof.
  revert r b. induction l as [|p l IH]; intros r b; cbn [clean_loop].
  { intros [= <- <-]. split; [by intros p ?%elem_of_nil|]. split; [|done]. intros _ p n s ?%elem_of_nil. done. }
  destruct (file_name p) as [n|] eqn:En.
  2: { intros [= <- <-]. split; [by intros q ?%elem_of_nil|]. split; [done|]. intros H. destruct (H p) as (n & s & Hn & _); [left|congruence]. }
  destruct (double_stem n) as [s|] eqn:Es.
  2: { intros [= <- <-]. split; [by intros q ?%elem_of_nil|]. split; [done|]. intros H. destruct (H p) as (n' & s & Hn & Hs & _); [left|congruence]. }
  case_bool_decide as Hm.
  - destruct (ls d p) eqn:El.
    { intros [= <- <-]. split; [by intros q ?%elem_of_nil|]. split; [done|]. intros H. destruct (H p) as (n' & s' & Hn & Hs & Hd); [left|].
      assert (n' = n) by congruence. subst n'. assert (s' = s) by congruence. subst s'. specialize (Hd Hm). congruence. }
    destruct (clean_loop d ms l) as [r' b']. intros [= <- <-]. destruct (IH r' b' eq_refl) as (H1 & H2 & H3). split; [|split].
    + intros q [->|Hq]%elem_of_cons; [split; [left|]; by exists n, s|]. destruct (H1 q Hq) as [? ?]. split; [by right|done].
    + intros Hb q n' s' [->|Hq]%elem_of_cons Hn Hs Hin; [left|right; by eapply H2].
    + intros H. apply H3. intros q Hq. apply H. by right.
  - intros H. destruct (IH r b H) as (H1 & H2 & H3). split; [|split].
    + intros q Hq. destruct (H1 q Hq) as [? ?]. split; [by right|done].
    + intros Hb q n' s' [->|Hq]%elem_of_cons Hn Hs Hin; [|by eapply H2]. exfalso. apply Hm. congruence.
    + intros H4. apply H3. intros q Hq. apply H4. by right.
Qed.
Lemma clean_loop_total d ms l r : clean_loop d ms l = (r, true) -> forall p, p ∈ l -> exists n s, file_name p = Some n /\ double_stem n = Some s.
Proof.
  revert r. induction l as [|p l IH]; intros r; cbn [clean_loop]; [by intros _ p ?%elem_of_nil|].
  destruct (file_name p) as [n|] eqn:En; [|done]. destruct (double_stem n) as [s|] eqn:Es; [|done]. case_bool_decide.
  - destruct (ls d p); [done|]. destruct (clean_loop d ms l) as [r' b']. intros [= <- ->] q [->|Hq]%elem_of_cons; [by exists n, s|by eapply IH].
  - intros Hr q [->|Hq]%elem_of_cons; [by exists n, s|by eapply IH].
Qed.
Lemma managers_two d task : good_tree d -> ordinary task ->
  list_files d task ["managers/*.*"] = Some (map (child (child task "managers")) (matching d (child task "managers") [TStar; TChar "."; TStar])).
Proof.
  intros Hg Ho. rewrite <- (app_nil_r (map _ _)). eapply lf_cons; [|apply lf_nil].
  eapply (glob_dir d task "managers" "*.*"); [done|done|plain_literal|done|done|reflexivity|done].
Qed.
Lemma managers_three d task : good_tree d -> ordinary task ->
  list_files d task ["managers/*.*.*"] = Some (map (child (child task "managers")) (matching d (child task "managers") [TStar; TChar "."; TStar; TChar "."; TStar])).
Proof.
  intros Hg Ho. rewrite <- (app_nil_r (map _ _)). eapply lf_cons; [|apply lf_nil].
  eapply (glob_dir d task "managers" "*.*.*"); [done|done|plain_literal|done|done|reflexivity|done].
Qed.
Lemma stems_spec d task s : good_tree d ->
  s ∈ omap (fun p => option_map file_stem (file_name p)) (map (child (child task "managers")) (matching d (child task "managers") [TStar; TChar "."; TStar])) <->
  exists m, entry d (child task "managers") m /\ stem_of s m.
Proof.
  intros Hg. rewrite elem_of_list_omap. split.
  - intros (p & (m & -> & Hm)%elem_of_list_fmap & Hs). pose proof (matching_plain _ _ _ _ Hg Hm) as Hp. rewrite file_name_child in Hs by done. cbn in Hs. injection Hs as <-.
    apply matching_spec in Hm as [He Hm]. apply two_match in Hm. exists m. split; [done|]. by apply stem_of_spec.
  - intros (m & He & Hs). assert ("."%char ∈ chars m) as Hd.
    { destruct Hs as [(x & -> & _)|(-> & y & -> & _)]; rewrite !chars_app; set_solver. }
    assert (m ∈ matching d (child task "managers") [TStar; TChar "."; TStar]) as Hm by (apply matching_spec; split; [done|]; by apply two_match).
    exists (child (child task "managers") m). split; [apply elem_of_list_fmap; by exists m|]. rewrite file_name_child by (by eapply matching_plain). cbn. f_equal. by apply stem_of_spec.
Qed.
Lemma double_stem_spec u c : no_dot c -> "."%char ∈ chars u ->
  match double_stem (u +:+ "." +:+ c) with
  | None => u = "." \/ u = ".."
  | Some s => (s <> "" /\ exists b, u = s +:+ "." +:+ b /\ no_dot b) \/ (s = u /\ exists b, u = "." +:+ b /\ b <> "" /\ no_dot b)
  end.
Proof.
  intros Hc Hu. assert (u <> "") as Hne. { intros ->. by apply elem_of_nil in Hu. }
  unfold double_stem. rewrite file_stem_dot by done. case_decide as Hd; [done|].
  pose proof (proj1 (stem_of_spec (file_stem u) u Hu) eq_refl) as [(b & E & Ha & Hb)|(E & b & E2 & Hb)].
  - left. split; [done|]. by exists b.
  - right. split; [done|]. exists b. rewrite <- E in E2. split; [done|]. split; [|done]. intros ->. apply Hd. left. done.
Qed.

Lemma removed_names d task n : good_tree d -> entry d (child task "managers") n ->
  forall s, double_stem n = Some s -> (exists u c, n = u +:+ "." +:+ c /\ no_dot c /\ "."%char ∈ chars u) ->
  ((exists m, entry d (child task "managers") m /\ stem_of s m) <-> leftover d task n \/ hidden d task n).
Proof.
  intros Hg He s Hs (u & c & -> & Hc & Hu). pose proof (double_stem_spec u c Hc Hu) as Hd. rewrite Hs in Hd. split.
  - intros (m & Hm & Hst). destruct Hd as [(Hne & b & -> & Hb)|(-> & b & -> & Hb & Hbd)].
    + left. exists s, b, c, m. split_and!; try done. apply chars_inj. by rewrite !chars_app, <- !app_assoc.
    + right. exists b, c. done.
  - intros [(a & b & c' & m & E & Ha & Hb & Hc' & Hst & _ & Hm)|(b & c' & E & Hbn & Hb & Hc' & _)].
    + assert (u +:+ "." +:+ c = (a +:+ "." +:+ b) +:+ "." +:+ c') as E2. { rewrite E. apply chars_inj. by rewrite !chars_app, <- !app_assoc. }
      apply app_dot_inj in E2 as [-> <-]; try done.
      destruct Hd as [(Hne & b2 & E2 & Hb2)|(-> & b2 & E2 & Hb2 & Hbd)].
      * apply app_dot_inj in E2 as [-> _]; try done. by exists m.
      * assert (a +:+ "." +:+ b = "" +:+ "." +:+ b2) as E3 by done. apply app_dot_inj in E3 as [-> _]; done.
    + assert (u +:+ "." +:+ c = ("." +:+ b) +:+ "." +:+ c') as E2. { rewrite E. apply chars_inj. by rewrite !chars_app, <- !app_assoc. }
      apply app_dot_inj in E2 as [-> <-]; try done.
      exists (("." +:+ b) +:+ "." +:+ c). split; [done|].
      destruct Hd as [(Hne & b2 & E2 & Hb2)|(-> & _)].
      * assert ("" +:+ "." +:+ b = s +:+ "." +:+ b2) as E3 by done. apply app_dot_inj in E3 as [<- _]; done.
      * left. exists c. done.
Qed.
Lemma two_dots_of d task n : leftover d task n \/ hidden d task n -> exists u c, n = u +:+ "." +:+ c /\ no_dot c /\ "."%char ∈ chars u.
Proof.
  intros [(a & b & c & m & -> & Ha & Hb & Hc & _)|(b & c & -> & Hbn & Hb & Hc & _)].
  - exists (a +:+ "." +:+ b), c. split; [apply chars_inj; by rewrite !chars_app, <- !app_assoc|]. split; [done|]. rewrite !chars_app. set_solver.
  - exists ("." +:+ b), c. split; [apply chars_inj; by rewrite !chars_app, <- !app_assoc|]. split; [done|]. rewrite !chars_app. set_solver.
Qed.
Lemma entry_of d task n : leftover d task n \/ hidden d task n -> entry d (child task "managers") n.
Proof. intros [(a & b & c & m & _ & _ & _ & _ & _ & He & _)|(b & c & _ & _ & _ & _ & He)]; done. Qed.
Lemma clean_spec d task : good_tree d -> ordinary task ->
  exists r ok, terry_clean d task = Some (r, ok) /\
  (forall p, p ∈ r -> p = child task "bin" \/ exists n, p = child (child task "managers") n /\ (leftover d task n \/ hidden d task n)) /\
  (ok = true -> (forall n, leftover d task n \/ hidden d task n -> child (child task "managers") n ∈ r) /\ (stat d (child task "bin") = true -> child task "bin" ∈ r)) /\
  ((forall n, entry d (child task "managers") n -> ~ begins ".." n) ->
   (forall n, leftover d task n \/ hidden d task n -> ls d (child (child task "managers") n) = None) -> ok = true).
Proof.
  intros Hg Ho. unfold terry_clean. rewrite (managers_two d task Hg Ho), (managers_three d task Hg Ho).
  destruct (clean_loop _ _ _) as [r b] eqn:E. cbv zeta.
  set (all := omap (fun p => option_map file_stem (file_name p)) (map (child (child task "managers")) (matching d (child task "managers") [TStar; TChar "."; TStar]))) in *.
  set (L := map (child (child task "managers")) (matching d (child task "managers") [TStar; TChar "."; TStar; TChar "."; TStar])) in *.
  assert (forall s, s ∈ all <-> exists m, entry d (child task "managers") m /\ stem_of s m) as Hall by (intros s; by apply stems_spec).
  assert (forall p, p ∈ L <-> exists n, p = child (child task "managers") n /\ entry d (child task "managers") n /\ (exists u c, n = u +:+ "." +:+ c /\ no_dot c /\ "."%char ∈ chars u)) as HL.
  { intros p. unfold L. rewrite elem_of_list_fmap. setoid_rewrite matching_spec. setoid_rewrite three_match. naive_solver. }
  assert (forall n, entry d (child task "managers") n -> plain n) as Hpl.
  { intros n (names & H1 & H2). destruct (gt_names d Hg _ _ H1) as [_ H]. rewrite Forall_forall in H. by apply H. }
  pose proof (clean_loop_spec d all L r b E) as (H1 & H2 & H3).
  assert (forall p, p ∈ r -> exists n, p = child (child task "managers") n /\ (leftover d task n \/ hidden d task n)) as Hr.
  { intros p Hp. destruct (H1 p Hp) as (HpL & n & s & Hn & Hs & Hin). apply HL in HpL as (n' & -> & He & Hu). rewrite file_name_child in Hn by by apply Hpl. injection Hn as <-.
    exists n'. split; [done|]. apply (removed_names d task n' Hg He s Hs Hu). by apply Hall. }
  assert (b = true -> forall n, leftover d task n \/ hidden d task n -> child (child task "managers") n ∈ r) as Hc.
  { intros -> n Hn. assert (child (child task "managers") n ∈ L) as HnL by (apply HL; exists n; split_and!; [done|by eapply entry_of|by eapply two_dots_of]).
    destruct (clean_loop_total d all L r E _ HnL) as (n' & s & Hn' & Hs). pose proof (entry_of d task n Hn) as He.
    assert (n' = n) as -> by (rewrite file_name_child in Hn' by (by apply Hpl); congruence).
    eapply H2; [done|done|done|exact Hs|]. apply Hall. apply (removed_names d task n Hg He s Hs); [by eapply two_dots_of|done]. }
  assert ((forall n, entry d (child task "managers") n -> ~ begins ".." n) -> (forall n, leftover d task n \/ hidden d task n -> ls d (child (child task "managers") n) = None) -> b = true) as Hb.
  { intros Hdots Hdir. apply H3. intros p (n & -> & He & Hu)%HL. rewrite file_name_child by by apply Hpl. exists n.
    destruct (double_stem n) as [s|] eqn:Es.
    - exists s. split; [done|]. split; [done|]. intros Hs. apply Hdir. apply (removed_names d task n Hg He s Es Hu). by apply Hall.
    - exfalso. destruct Hu as (u & c & -> & Hcd & Hu). pose proof (double_stem_spec u c Hcd Hu) as Hx. rewrite Es in Hx.
      apply (Hdots _ He). destruct Hx as [-> | ->]; [by exists c|by exists ("." +:+ c)]. }
  destruct b.
  - destruct (stat d (child task "bin")) eqn:Eb.
    + exists (r ++ [child task "bin"]), true. split; [done|]. split; [|split; [|done]].
      * intros p [Hp|Hp]%elem_of_app; [right; by apply Hr|]. left. by apply elem_of_list_singleton in Hp.
      * intros _. split; [intros n Hn; apply elem_of_app; left; by apply Hc|]. intros _. apply elem_of_app. right. by apply elem_of_list_singleton.
    + exists r, true. split; [done|]. split; [intros p Hp; right; by apply Hr|]. split; [|done]. intros _. split; [by apply Hc|done].
  - exists r, false. split; [done|]. split; [intros p Hp; right; by apply Hr|]. split; [done|]. done.
Qed.
