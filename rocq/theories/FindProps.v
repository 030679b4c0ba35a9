(** * FindProps: C72, which files are the programs of a task *)
From Verif Require Export FindModel FindSpec LangSpec.
From Verif Require Import FindProofs FindProofs2 FindProofs3 LangProofs3 BuildProofs.
From Coq Require Import Ascii String.
From stdpp Require Import base list sorting.
Local Open Scope nat_scope.

(** ** A disk with some files *)
Fixpoint after (pre f : list string) : option (list string) :=
  match pre, f with
  | [], _ => Some f
  | a :: pre, b :: f => if decide (a = b) then after pre f else None
  | _ :: _, [] => None
  end.
Definition tree_of (files : list (list string)) : tree := Tree
  (fun p => if p_abs p then match omap (fun f => match after (p_comps p) f with Some (x :: _) => Some x | _ => None end) files with [] => None | l => Some (remove_dups l) end else None)
  (fun p => p_abs p && existsb (fun f => match after (p_comps p) f with Some _ => true | None => false end) files)
  (fun p => p_abs p && bool_decide (p_comps p ∈ files)).
Lemma after_app pre f r : after pre f = Some r <-> f = pre ++ r.
Proof.
  revert f. induction pre as [|a pre IH]; intros f; [cbn; split; [by intros [= ->]|by intros ->]|]. destruct f as [|b f]; [done|]. cbn [after app].
  case_decide as E; [subst; rewrite IH; split; [by intros ->|by intros [= ->]]|]. split; [done|]. intros [= -> _]. done.
Qed.
Lemma tree_of_good files : Forall (Forall plain) files -> good_tree (tree_of files).
Proof.
  intros Hpl.
  assert (forall p l, ls (tree_of files) p = Some l -> p_abs p = true /\ NoDup l /\ forall x, x ∈ l <-> exists r, (p_comps p ++ x :: r) ∈ files) as Hls.
  { intros p l. cbn. destruct (p_abs p); [|done].
    assert (forall x, x ∈ omap (fun f => match after (p_comps p) f with Some (x :: _) => Some x | _ => None end) files <-> exists r, (p_comps p ++ x :: r) ∈ files) as Hx.
    { intros x. rewrite elem_of_list_omap. split.
      - intros (f & Hf & E). destruct (after (p_comps p) f) as [[|y r]|] eqn:Ea; try done. injection E as ->. apply after_app in Ea. subst f. by exists r.
      - intros (r & Hr). exists (p_comps p ++ x :: r). split; [done|]. by rewrite (proj2 (after_app (p_comps p) _ (x :: r)) eq_refl). }
    destruct (omap _ files) as [|y ys] eqn:Eo; [done|]. intros [= <-]. split; [done|]. split; [exact (NoDup_remove_dups (y :: ys))|].
    intros x. rewrite <- Hx. exact (elem_of_remove_dups (y :: ys) x). }
  assert (forall p, stat (tree_of files) p = true <-> p_abs p = true /\ exists r, (p_comps p ++ r) ∈ files) as Hst.
  { intros p. cbn. rewrite andb_true_iff, existsb_exists. split.
    - intros (Ha & f & Hf & E). split; [done|]. destruct (after (p_comps p) f) as [r|] eqn:Ea; [|done]. apply after_app in Ea. exists r. rewrite <- Ea. by apply elem_of_list_In.
    - intros (Ha & r & Hr). split; [done|]. exists (p_comps p ++ r). split; [by apply elem_of_list_In|]. by rewrite (proj2 (after_app _ _ r) eq_refl). }
  constructor.
  - intros p l H. apply Hls in H as (_ & Hn & Hx). split; [done|]. apply Forall_forall. intros x [r Hr]%Hx. rewrite Forall_forall in Hpl. apply Hpl in Hr.
    apply Forall_app in Hr as [_ Hr]. by apply Forall_cons in Hr as [? _].
  - intros p n H _. apply Hst in H as (Ha & r & Hr). cbn [child p_abs p_comps] in *. rewrite <- app_assoc in Hr. cbn [app] in Hr.
    destruct (ls (tree_of files) p) as [l|] eqn:El.
    + exists l. split; [done|]. apply (Hls p l El). by exists r.
    + exfalso. cbn in El. rewrite Ha in El. destruct (omap _ files) as [|y ys] eqn:Eo; [|done].
      assert (n ∈ omap (fun f => match after (p_comps p) f with Some (x :: _) => Some x | _ => None end) files) as Hin.
      { apply elem_of_list_omap. exists (p_comps p ++ n :: r). split; [done|]. by rewrite (proj2 (after_app (p_comps p) _ (n :: r)) eq_refl). }
      rewrite Eo in Hin. by apply elem_of_nil in Hin.
  - intros p n H Hne. apply Hst in H as (Ha & r & Hr). cbn [child p_abs p_comps] in *. apply Hst. split; [done|]. exists (n :: r). by rewrite <- app_assoc in Hr.
  - intros p l H Hne. destruct (Hls p l H) as (Ha & _ & Hx). apply Hst. split; [done|]. destruct l as [|x l].
    + cbn in H. rewrite Ha in H. destruct (omap _ files) as [|y ys] eqn:Eo; [done|]. injection H as H. exfalso.
      assert (y ∈ remove_dups (y :: ys)) as Hy by (apply elem_of_remove_dups; left). cbn [remove_dups] in Hy. rewrite H in Hy. by apply elem_of_nil in Hy.
    + destruct (proj1 (Hx x)) as [r Hr]; [left|]. by exists (x :: r).
Qed.
Ltac good_files := apply tree_of_good; apply (bool_decide_unpack _); vm_compute; exact Logic.I.
Global Instance plain_dec n : Decision (plain n).
Proof. unfold plain. apply _. Defined.
Global Instance ordinary_dec p : Decision (ordinary p).
Proof. unfold ordinary, no_special. apply _. Defined.
Global Instance valid_filter_dec l : Decision (valid_filter l).
Proof. unfold valid_filter. apply _. Defined.

(** ** The solutions *)
(** The solutions of an IOI task are the files of sol/, in the order of their names, that exist, can be read, have a known language, match the filter of the user and are
    not graders; each is there once, with its language. *)
Theorem C72_solutions d c task : good_tree d -> ordinary task -> valid_filter (ec_filter c) -> ec_paths c = [] -> one_grader d task ->
  exists l names, ioi_solutions d c task = Some l /\ map fst l = map (child (child task "sol")) names /\ StronglySorted name_le names /\ NoDup names /\
  forall p lg, (p, lg) ∈ l <-> exists n, p = child (child task "sol") n /\ entry d (child task "sol") n /\ stat d p = true /\ readable d p = true /\
     detect_language p = Some lg /\ ~ grader_name n /\ selected (ec_filter c) n.
Proof.
  intros Hg Ho Hv Hp Hu. unfold ioi_solutions. rewrite (grader_files d task Hg Ho).
  set (gs := used_graders _).
  destruct (find_listed d c task "sol" ["sol/*"] gs Hg Hv Hp (sol_star d task Hg Ho)) as (r & names & H1 & H2 & H3 & H4 & H5).
  exists r, names. split; [done|]. split; [done|]. split; [done|]. split; [done|].
  intros p lg. rewrite H5. split; intros (n & -> & He & Hst & Hr & Hlg & Hgr & Hsel); exists n; split_and!; try done.
  - intros Hn. apply Hgr. apply (graders_in_use d task); [done|done|by exists lg|]. by exists n.
  - intros Hin. apply (graders_in_use d task) in Hin as (n' & E & He' & Hn'); [|done|done|by exists lg]. apply child_inj in E. by subst n'.
Qed.
(** Whatever is asked, the grader that is linked with the solutions of its language is not a solution *)
Theorem C72_grader_not_solution d c task gs l lg f p : list_files d task ["sol/grader.*"; "sol/stub.*"] = Some gs ->
  aget (lang_name lg) (grader_map (map (fun p => (1%positive, p)) gs) []) = Some (f, p) ->
  ioi_solutions d c task = Some l -> p ∉ map fst l.
Proof.
  intros Hgs Hp. unfold ioi_solutions. rewrite Hgs. unfold find_solutions. destruct (solution_paths d c task ["sol/*"]) as [ps|]; [|done].
  destruct (solution_filters c) as [fs|]; [|done].
  assert (p ∈ used_graders gs) as Hin by (unfold used_graders, all_paths; apply aget_pair in Hp; apply elem_of_list_fmap; by exists (lang_name lg, (f, p))).
  revert l. induction ps as [|q ps IH]; intros l; cbn [pick_solutions]; [intros [= <-]; apply not_elem_of_nil|].
  case_bool_decide as Hq; [apply IH|]. destruct (negb (stat d q)); [apply IH|]. destruct (passes_filter c fs q) as [[]|]; [|apply IH|done].
  unfold solution_new. destruct (file_name q); [|done]. destruct (detect_language q); [|apply IH]. destruct (readable d q); [|apply IH].
  destruct (pick_solutions d c fs (used_graders gs) ps) as [r|]; [|done]. intros [= <-]. cbn [map fst]. intros [->|H]%elem_of_cons; [done|]. by apply (IH r).
Qed.
(** The same for a Terry task: solutions/, without graders *)
Theorem C72_terry_solutions d c task : good_tree d -> ordinary task -> valid_filter (ec_filter c) -> ec_paths c = [] ->
  exists l names, terry_solutions d c task = Some l /\ map fst l = map (child (child task "solutions")) names /\ StronglySorted name_le names /\ NoDup names /\
  forall p lg, (p, lg) ∈ l <-> exists n, p = child (child task "solutions") n /\ entry d (child task "solutions") n /\ stat d p = true /\ readable d p = true /\
     detect_language p = Some lg /\ selected (ec_filter c) n.
Proof.
  intros Hg Ho Hv Hp. unfold terry_solutions.
  destruct (find_listed d c task "solutions" ["solutions/*"] [] Hg Hv Hp (solutions_star d task Hg Ho)) as (r & names & H1 & H2 & H3 & H4 & H5).
  exists r, names. split; [done|]. split; [done|]. split; [done|]. split; [done|].
  intros p lg. rewrite H5. split; intros (n & -> & H); exists n; [naive_solver|]. destruct H as (? & ? & ? & ? & ?). split_and!; try done. apply not_elem_of_nil.
Qed.
(** The solutions that the user names replace those of the directory; they are evaluated in the order given, those that are not files in a known language left out *)
Theorem C72_named_solutions d c task : good_tree d -> ordinary task -> valid_filter (ec_filter c) -> ec_paths c <> [] -> one_grader d task ->
  Forall (fun p => is_Some (file_name p)) (ec_paths c) ->
  exists l keep, ioi_solutions d c task = Some l /\ map fst l = filter (fun p => keep p = true) (ec_paths c) /\ Forall (fun s => detect_language (fst s) = Some (snd s)) l /\
  forall p n, file_name p = Some n -> (keep p = true <-> stat d p = true /\ readable d p = true /\ is_Some (detect_language p) /\
     selected (ec_filter c) n /\ ~ (p = child (child task "sol") n /\ entry d (child task "sol") n /\ grader_name n)).
Proof.
  intros Hg Ho Hv Hne Hu Hfn. unfold ioi_solutions. rewrite (grader_files d task Hg Ho). set (gs := used_graders _).
  unfold find_solutions, solution_paths. destruct (filters_total c Hv) as (fs & Hfs). rewrite Hfs.
  destruct (ec_paths c) as [|p0 ps] eqn:E; [done|]. rewrite <- E in *.
  destruct (pick_spec d c fs gs (ec_paths c)) as (r & H1 & H2 & H3); [done|]. exists r, (sol_ok d c fs gs). split; [by rewrite E in *|]. split; [done|]. split; [done|].
  intros p n Hn. unfold sol_ok. rewrite Hn, !andb_true_iff, negb_true_iff, bool_decide_eq_false, bool_decide_eq_true.
  destruct (filters_spec c n Hv) as (fs' & Hfs' & Hsel). assert (fs' = fs) by congruence. subst fs'. rewrite Hsel.
  assert (is_Some (detect_language p) -> (p ∈ gs <-> p = child (child task "sol") n /\ entry d (child task "sol") n /\ grader_name n)) as Hin.
  { intros Hl. unfold gs. rewrite (graders_in_use d task p Hg Hu Hl). split.
    - intros (m & -> & He & Hm). assert (plain m) as Hpm. { destruct He as (names & H4 & H5). destruct (gt_names d Hg _ _ H4) as [_ H6]. rewrite Forall_forall in H6. by apply H6. }
      rewrite file_name_child in Hn by done. injection Hn as ->. done.
    - intros (-> & He & Hm). by exists n. }
  tauto.
Qed.

(** ** The order in which the system lists a directory does not matter *)
Theorem C72_listing_order d1 d2 c task : same_tree d1 d2 ->
  ioi_solutions d1 c task = ioi_solutions d2 c task /\ terry_solutions d1 c task = terry_solutions d2 c task /\
  detect_validator d1 task = detect_validator d2 task /\ detect_official d1 task = detect_official d2 task /\ detect_checker d1 task = detect_checker d2 task /\
  detect_manager d1 task = detect_manager d2 task /\ detect_generator d1 task = detect_generator d2 task /\
  (forall exe m, get_manager d1 task exe m = get_manager d2 task exe m) /\ terry_clean d1 task = terry_clean d2 task.
Proof.
  intros Hs. split.
  { unfold ioi_solutions. rewrite (same_list_files d1 d2 _ _ Hs). destruct (list_files d2 task _); [|done]. by apply same_find_solutions. }
  split; [by apply same_find_solutions|]. do 5 (split; [by apply same_the_only|]). split; [intros; by apply same_the_only|by apply same_clean].
Qed.

(** ** The other programs *)
(** The validator is the only file gen/validator.* or gen/valida.* in a known language; without one there is none, with more than one the task is not accepted, and the error
    names them all.  The same for the other programs; the executable goes where the last argument of [chosen] says. *)
Theorem C72_programs d task : good_tree d -> ordinary task ->
  let bin n := FPath (p_abs task) (p_comps task ++ ["bin"; n]) in
  chosen (candidate d task [("gen", "validator"); ("gen", "valida")]) (fun _ => bin "validator") (detect_validator d task) /\
  chosen (candidate d task [("gen", "generator"); ("gen", "generatore")]) (fun _ => bin "generator") (detect_generator d task) /\
  chosen (candidate d task [("sol", "solution"); ("sol", "soluzione")]) (fun _ => bin "official_solution") (detect_official d task) /\
  chosen (candidate d task [("check", "checker"); ("cor", "correttore")]) without_extension (detect_checker d task) /\
  chosen (candidate d task [("check", "manager"); ("cor", "manager")]) without_extension (detect_manager d task).
Proof.
  intros Hg Ho bin. split; [exact (validator_spec d task Hg Ho)|]. split; [exact (generator_spec d task Hg Ho)|]. split; [exact (official_spec d task Hg Ho)|].
  split; [exact (checker_spec d task Hg Ho)|exact (manager_spec d task Hg Ho)].
Qed.
(** The managers of a Terry task: [exe] is the name of the system and of the architecture *)
Theorem C72_terry_managers d task exe m : good_tree d -> ordinary task -> m ∈ ["generator"; "validator"; "checker"; "solution"] -> "/"%char ∉ chars exe ->
  chosen (candidate d task [("managers", m)]) (fun _ => FPath (p_abs task) (p_comps task ++ ["managers"; m +:+ "." +:+ exe])) (get_manager d task exe m).
Proof.
  intros Hg Ho Hm He. pose proof (terry_manager_spec d task exe m Hg Ho Hm) as H.
  assert (fjoin task (fpath_of (chars ("managers/" +:+ m +:+ "." +:+ exe))) = FPath (p_abs task) (p_comps task ++ ["managers"; m +:+ "." +:+ exe])) as E.
  { assert (fpath_of (chars ("managers/" +:+ m +:+ "." +:+ exe)) = FPath false ["managers"; m +:+ "." +:+ exe]) as ->.
    { rewrite chars_app. unfold fpath_of.
      assert (split_on "/"%char (chars "managers/" ++ chars (m +:+ "." +:+ exe)) = [chars "managers"; chars (m +:+ "." +:+ exe)]) as ->.
      { change (chars "managers/") with (chars "managers" ++ ["/"%char]). rewrite <- app_assoc. cbn [app]. rewrite LangProofs2.split_on_app by (apply (bool_decide_unpack _); vm_compute; exact Logic.I).
        f_equal. apply LangProofs.split_on_none. rewrite !chars_app, !not_elem_of_app. split; [|split; [apply (bool_decide_unpack _); vm_compute; exact Logic.I|done]].
        rewrite !elem_of_cons, elem_of_nil in Hm. destruct Hm as [->|[->|[->|[->|[]]]]]; apply (bool_decide_unpack _); vm_compute; exact Logic.I. }
      rewrite filter_cons_True by done. rewrite filter_cons_True; [rewrite filter_nil; cbn [map]; rewrite (string_chars (m +:+ "." +:+ exe)); reflexivity|].
      unfold real_comp. rewrite chars_app. rewrite !elem_of_cons, elem_of_nil in Hm. by destruct Hm as [->|[->|[->|[->|[]]]]]. }
    unfold fjoin. cbn [p_abs p_comps]. f_equal. f_equal. rewrite filter_cons_True by done. rewrite filter_cons_True; [done|].
    rewrite !elem_of_cons, elem_of_nil in Hm. by destruct Hm as [->|[->|[->|[->|[]]]]]. }
  unfold dest_of in H. rewrite E in H. exact H.
Qed.
(** The executable of a checker or of a manager is not taken for another source when the name of the source has one extension *)
Theorem C72_executable_not_source d task p b stem ext : good_tree d -> ordinary task ->
  (detect_checker d task = FOne p b \/ detect_manager d task = FOne p b) -> file_name p = Some (stem +:+ "." +:+ ext) -> no_dot stem -> no_dot ext -> stem <> "" ->
  detect_language b = None /\ b = FPath (p_abs p) (removelast (p_comps p) ++ [stem]).
Proof.
  intros Hg Ho Hr Hn Hs Hx Hne.
  assert (b = without_extension p) as ->.
  { destruct (C72_programs d task Hg Ho) as (_ & _ & _ & H1 & H2). destruct Hr as [Hr|Hr]; [rewrite Hr in H1; by destruct H1 as (_ & _ & ->)|rewrite Hr in H2; by destruct H2 as (_ & _ & ->)]. }
  assert (without_extension p = FPath (p_abs p) (removelast (p_comps p) ++ [stem])) as ->.
  { unfold without_extension. rewrite Hn. pose proof (file_stem_dot stem ext Hne Hx) as H. unfold file_stem in H. by rewrite H. }
  split; [|done]. destruct (decide (stem = "." \/ stem = "..")) as [[E|E]|Hd].
  - subst stem. exfalso. apply Hs. apply (bool_decide_unpack _); vm_compute; exact Logic.I.
  - subst stem. exfalso. apply Hs. apply (bool_decide_unpack _); vm_compute; exact Logic.I.
  - eapply no_language; [|exact Hs]. unfold file_name. cbn [p_comps]. rewrite last_snoc, decide_False by tauto. done.
Qed.

(** ** [clean] of a Terry task *)
(** It removes only bin/ and, in managers/, the leftovers [a.b.c] of a manager [a.x] and the hidden files with an extension; when it reaches the end it removed them all. *)
Theorem C72_clean d task : good_tree d -> ordinary task ->
  exists r ok, terry_clean d task = Some (r, ok) /\
  (forall p, p ∈ r -> p = child task "bin" \/ exists n, p = child (child task "managers") n /\ (leftover d task n \/ hidden d task n)) /\
  (ok = true -> (forall n, leftover d task n \/ hidden d task n -> child (child task "managers") n ∈ r) /\ (stat d (child task "bin") = true -> child task "bin" ∈ r)) /\
  ((forall n, entry d (child task "managers") n -> ~ begins ".." n) ->
   (forall n, leftover d task n \/ hidden d task n -> ls d (child (child task "managers") n) = None) -> ok = true).
Proof. apply clean_spec. Qed.
(** A file of managers/ with one extension is kept; the executable of a manager with one extension is removed *)
Theorem C72_clean_managers d task r ok a x : good_tree d -> ordinary task -> terry_clean d task = Some (r, ok) -> no_dot a -> no_dot x ->
  (child (child task "managers") (a +:+ "." +:+ x) ∉ r) /\
  (forall os arch, a <> "" -> no_dot os -> no_dot arch -> entry d (child task "managers") (a +:+ "." +:+ x) ->
     entry d (child task "managers") (a +:+ "." +:+ os +:+ "." +:+ arch) -> ok = true -> child (child task "managers") (a +:+ "." +:+ os +:+ "." +:+ arch) ∈ r).
Proof.
  intros Hg Ho H Ha Hx. destruct (clean_spec d task Hg Ho) as (r' & ok' & H' & H1 & H2 & _). assert (r' = r /\ ok' = ok) as [-> ->] by (split; congruence). split.
  - intros Hin. apply H1 in Hin as [E|(n & E & Hn)].
    + unfold child in E. cbn [p_abs p_comps] in E. injection E as E. apply (f_equal length) in E. rewrite !app_length in E. simpl in E. lia.
    + apply child_inj in E. destruct (two_dots_of d task n Hn) as (u & c & Eu & Hc & Hu). subst n. apply app_dot_inj in Eu as [-> ->]; done.
  - intros os arch Hne Hos Har He1 He2 ->. apply H2; [done|]. left. exists a, os, arch, (a +:+ "." +:+ x). split_and!; try done. left. by exists x.
Qed.

(** ** What does not hold *)
Definition easy := FPath true ["tasks"; "easy"].
Definition in_easy (dir n : string) : list string := ["tasks"; "easy"; dir; n].
Definition any_config := EvalConfig [] [].
(** With two graders for a language one of them is evaluated as a solution *)
Theorem C72_second_grader_refuted : exists d, good_tree d /\ exists n l, grader_name n /\ ioi_solutions d any_config easy = Some l /\ (child (child easy "sol") n, LCpp) ∈ l.
Proof.
  exists (tree_of [in_easy "sol" "grader.cpp"; in_easy "sol" "stub.cpp"; in_easy "sol" "solution.cpp"]). split; [good_files|].
  exists "grader.cpp", [(child (child easy "sol") "grader.cpp", LCpp); (child (child easy "sol") "solution.cpp", LCpp)].
  split; [left; by exists "cpp"|]. split; [by vm_compute|left].
Qed.
(** A filter that has no last component ([..], or empty) is a panic *)
Theorem C72_filter_panic_refuted : ioi_solutions (tree_of [in_easy "sol" "a.cpp"]) (EvalConfig [".."] []) easy = None /\
  ioi_solutions (tree_of [in_easy "sol" "a.cpp"]) (EvalConfig [""] []) easy = None.
Proof. by vm_compute. Qed.
(** The name of the directory of the task is read as a pattern: the task in [1] has the solutions of the task in 1, and a bracket that is not closed is a panic *)
Theorem C72_special_directory_refuted :
  ioi_solutions (tree_of [["t"; "1"; "sol"; "other.cpp"]; ["t"; "[1]"; "sol"; "mine.cpp"]]) any_config (FPath true ["t"; "[1]"])
    = Some [(FPath true ["t"; "1"; "sol"; "other.cpp"], LCpp)] /\
  ioi_solutions (tree_of [["t"; "[1"; "sol"; "mine.cpp"]]) any_config (FPath true ["t"; "[1"]) = None.
Proof. by vm_compute. Qed.
(** A solution that the user names and that does not exist is left out without a word; one named twice is evaluated twice *)
Theorem C72_named_refuted :
  ioi_solutions (tree_of [in_easy "sol" "a.cpp"]) (EvalConfig [] [FPath true (in_easy "sol" "typo.cpp"); FPath true (in_easy "sol" "a.cpp"); FPath true (in_easy "sol" "a.cpp")]) easy
    = Some [(FPath true (in_easy "sol" "a.cpp"), LCpp); (FPath true (in_easy "sol" "a.cpp"), LCpp)].
Proof. by vm_compute. Qed.
(** The executable of the checker checker.py.cpp is checker.py: the next time there are two checkers *)
Theorem C72_executable_refuted :
  detect_checker (tree_of [in_easy "check" "checker.py.cpp"]) easy = FOne (FPath true (in_easy "check" "checker.py.cpp")) (FPath true (in_easy "check" "checker.py")) /\
  detect_checker (tree_of [in_easy "check" "checker.py.cpp"; in_easy "check" "checker.py"]) easy
    = FMany [FPath true (in_easy "check" "checker.py"); FPath true (in_easy "check" "checker.py.cpp")].
Proof. by vm_compute. Qed.
(** [clean] removes a source of the user: managers/checker.test.py, because of checker.py; and the hidden file .vimrc.local *)
Theorem C72_clean_refuted :
  terry_clean (tree_of [in_easy "managers" "checker.py"; in_easy "managers" "checker.test.py"; in_easy "managers" ".vimrc.local"; in_easy "managers" "checker.linux.x86_64"]) easy
    = Some ([FPath true (in_easy "managers" ".vimrc.local"); FPath true (in_easy "managers" "checker.linux.x86_64"); FPath true (in_easy "managers" "checker.test.py")], true).
Proof. by vm_compute. Qed.
(** ... and stops with a panic at a file called ..a *)
Theorem C72_clean_panic_refuted :
  terry_clean (tree_of [in_easy "managers" "..a"; in_easy "managers" "checker.py"; in_easy "managers" "checker.linux.x86_64"; ["tasks"; "easy"; "bin"; "x"]]) easy = Some ([], false).
Proof. by vm_compute. Qed.

(** ** The hypotheses are met *)
Definition task_files := tree_of [in_easy "sol" "z.py"; in_easy "sol" "grader.cpp"; in_easy "sol" "solution.cpp"; in_easy "sol" "bogus.txt"; in_easy "sol" "grader.py"; in_easy "sol" "a.c++";
  in_easy "gen" "valida.sh"; in_easy "gen" "generator.py"; in_easy "gen" "validator"; in_easy "check" "checker.rs"; in_easy "sol" "soluzione.pas"].
Example C72_instance :
  good_tree task_files /\ ordinary easy /\ valid_filter ["sol/sol"; "z"] /\ one_grader task_files easy /\
  ioi_solutions task_files any_config easy = Some [(FPath true (in_easy "sol" "a.c++"), LCpp); (FPath true (in_easy "sol" "solution.cpp"), LCpp);
     (FPath true (in_easy "sol" "soluzione.pas"), LPascal); (FPath true (in_easy "sol" "z.py"), LPython)] /\
  ioi_solutions task_files (EvalConfig ["sol/sol"; "z"] []) easy = Some [(FPath true (in_easy "sol" "solution.cpp"), LCpp);
     (FPath true (in_easy "sol" "soluzione.pas"), LPascal); (FPath true (in_easy "sol" "z.py"), LPython)] /\
  ioi_solutions task_files (EvalConfig [] [FPath true (in_easy "sol" "z.py"); FPath true (in_easy "sol" "grader.py")]) easy = Some [(FPath true (in_easy "sol" "z.py"), LPython)] /\
  detect_validator task_files easy = FOne (FPath true (in_easy "gen" "valida.sh")) (FPath true (in_easy "bin" "validator")) /\
  detect_official task_files easy = FMany [FPath true (in_easy "sol" "solution.cpp"); FPath true (in_easy "sol" "soluzione.pas")] /\
  detect_manager task_files easy = FNone /\
  detect_checker task_files easy = FOne (FPath true (in_easy "check" "checker.rs")) (FPath true (in_easy "check" "checker")).
Proof.
  split; [good_files|]. split; [apply (bool_decide_unpack _); by vm_compute|]. split; [apply (bool_decide_unpack _); by vm_compute|]. split; [|by vm_compute].
  intros n1 n2 (l1 & E1 & H1) (l2 & E2 & H2) G1 G2 _ E. vm_compute in E1, E2. injection E1 as <-. injection E2 as <-. rewrite !elem_of_cons, elem_of_nil in H1, H2.
  assert (forall n, grader_name n -> starts (chars "grader.") (chars n) || starts (chars "stub.") (chars n) = true) as Hd.
  { intros n [H|H]; apply begins_chars, starts_spec in H; rewrite H; [done|apply orb_true_r]. }
  apply Hd in G1, G2. repeat destruct H1 as [->|H1]; try (by vm_compute in G1); try done; repeat destruct H2 as [->|H2]; try (by vm_compute in G2); try done; by vm_compute in E.
Qed.
Example C72_terry_instance :
  let d := tree_of [in_easy "solutions" "b.py"; in_easy "solutions" "a.cpp"; in_easy "managers" "checker.py"; in_easy "managers" "generator.cpp"; in_easy "managers" "checker.linux.x86_64"] in
  good_tree d /\ terry_solutions d any_config easy = Some [(FPath true (in_easy "solutions" "a.cpp"), LCpp); (FPath true (in_easy "solutions" "b.py"), LPython)] /\
  get_manager d easy "linux.x86_64" "checker" = FOne (FPath true (in_easy "managers" "checker.py")) (FPath true (in_easy "managers" "checker.linux.x86_64")) /\
  get_manager d easy "linux.x86_64" "validator" = FNone /\
  terry_clean d easy = Some ([FPath true (in_easy "managers" "checker.linux.x86_64")], true).
Proof. split; [good_files|]. by vm_compute. Qed.

Print Assumptions C72_solutions.
Print Assumptions C72_grader_not_solution.
Print Assumptions C72_terry_solutions.
Print Assumptions C72_named_solutions.
Print Assumptions C72_listing_order.
Print Assumptions C72_programs.
Print Assumptions C72_terry_managers.
Print Assumptions C72_executable_not_source.
Print Assumptions C72_clean.
Print Assumptions C72_clean_managers.
Print Assumptions C72_second_grader_refuted.
