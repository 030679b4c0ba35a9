(** * BookletProps2: C82, the LaTeX source of a booklet *)
From Verif Require Export BookletModel BookletSpec.
From Verif Require Import BookletProofs2 BookletProps FindProofs FindProofs2 FindProofs3 LangProofs2.
From Coq Require Import Ascii String.
From stdpp Require Import base list sorting.
Local Open Scope nat_scope.

(** ** The file of a statement *)
(** It is the text of the author in the environment of the problem; the only change is that, in each line that loads a package, what begins with the first
    of these commands is preceded by a percent sign *)
Theorem C82_statement s : exists body, statement_tex s = begin_problem (sm_config s) ++ newline :: body ++ newline :: tex "end{problem}" /\
  Forall2 commented (lines_of (sm_content s)) (lines_of body).
Proof.
  exists (patch false (sm_content s)). split; [|apply patch_lines]. unfold statement_tex, begin_problem, args, tex. cbn [map concat]. rewrite app_nil_r.
  change (?x :: chars "begin{problem}" ++ ?r) with ((x :: chars "begin{problem}") ++ r). by rewrite <- ?app_assoc.
Qed.
Lemma live_percent a0 r : live (a0 ++ "%"%char :: r) -> exists a1, a0 = a1 ++ [backslash].
Proof.
  intros H. remember (a0 ++ "%"%char :: r) as t eqn:E. revert a0 E. induction H as [|c a H IH|c a Hb Hc H IH]; intros a0 E.
  - by destruct a0.
  - destruct a0 as [|x [|y a0]]; [by injection E|injection E as <- _; by exists []|]. injection E as <- <- E. destruct (IH _ E) as [a1 ->]. by exists (backslash :: c :: a1).
  - destruct a0 as [|x a0]; [by injection E|]. injection E as <- E. destruct (IH _ E) as [a1 ->]. by exists (c :: a1).
Qed.
Lemma commented_later a0 p0 a p : (forall a' p', a0 ++ p0 = a' ++ p' -> load p' -> length a0 <= length a') -> load p0 ->
  a0 ++ chars "% " ++ p0 = a ++ p -> load p -> exists r, a = a0 ++ "%"%char :: r.
Proof.
  intros Hm Hp0 E Hp. change (chars "% ") with ["%"%char; " "%char] in E. apply app_eq_app in E as (k & [[E1 E2]|[E1 E2]]).
  - exfalso. destruct k as [|x k]; [cbn in E2; rewrite E2 in Hp; by destruct Hp as (c & r & [=])|].
    assert (load (x :: k ++ p0)) as Hl.
    { destruct Hp as (c & r & E3). rewrite E2 in E3. symmetry in E3. apply app_eq_app in E3 as (k2 & [[E4 E5]|[E4 E5]]).
      - destruct k2 as [|y k2].
        + rewrite app_nil_r in E4. destruct Hp0 as (c0 & r0 & ->). unfold load. change (x :: k ++ ?z) with ((x :: k) ++ z). rewrite <- E4. by eexists _, _.
        + exfalso. injection E5 as <- _. apply percent_use. rewrite E4. set_solver.
      - change (x :: k ++ p0) with ((x :: k) ++ p0). rewrite E4, <- app_assoc. destruct k2 as [|y k2]; [destruct Hp0 as (c0 & r0 & ->); by eexists _, _|by eexists _, _]. }
    assert (length a0 <= length a) as H by (apply (Hm a (x :: k ++ p0)); [rewrite E1, <- app_assoc; done|done]). rewrite E1, app_length in H. cbn in H. lia.
  - destruct k as [|x k]; [cbn in E2; rewrite <- E2 in Hp; by destruct Hp as (c & r & [=])|]. injection E2 as <- E2. by exists k.
Qed.
(** So the statements load no package where TeX would refuse it, if no command is right after a backslash *)
Theorem C82_no_load l l' : commented l l' -> (forall a p, l = a ++ [backslash] ++ p -> ~ load p) -> ~ runs_load l'.
Proof.
  intros [[Hn ->]|(a0 & p0 & (-> & Hp0 & Hm) & ->)] Hb (a & p & E & Ha & Hp); [apply Hn; by exists a, p|].
  destruct (commented_later a0 p0 a p Hm Hp0 E Hp) as [r ->]. destruct (live_percent a0 r Ha) as [a1 ->]. apply (Hb a1 p0); [by rewrite <- app_assoc|done].
Qed.
(** A text that loads no package is left as it is *)
Theorem C82_unchanged s : (forall l, l ∈ lines_of (sm_content s) -> ~ loads l) ->
  statement_tex s = begin_problem (sm_config s) ++ newline :: sm_content s ++ newline :: tex "end{problem}".
Proof.
  intros H. destruct (C82_statement s) as (body & -> & HF). do 3 f_equal. assert (lines_of (sm_content s) = lines_of body) as E.
  { revert H. induction HF as [|l l' ls ls' Hc _ IH]; intros H; [done|]. f_equal; [|apply IH; intros k Hk; apply H; by right].
    destruct Hc as [[_ ->]|(a & p & (-> & Hp & _) & _)]; [done|]. exfalso. eapply H; [left|by exists a, p]. }
  assert (forall t, unlines [newline] (lines_of t) = t) as Hu.
  { clear. intros t. induction t as [t H|l r H IH] using lines_ind; [by rewrite lines_no|]. rewrite lines_app, (lines_no l) by done. cbn [app].
    destruct (lines_of r) as [|x xs] eqn:Er; [|change (unlines [newline] (l :: x :: xs)) with (l ++ newline :: unlines [newline] (x :: xs)); by rewrite IH].
    exfalso. destruct r as [|c r]; [done|]. cbn in Er. destruct (decide _); [done|]. by destruct (split_on newline r). }
  rewrite <- (Hu body), <- E. by rewrite Hu.
Qed.

(** ** The packages *)
(** They are those of the statements, each once, in alphabetical order *)
Lemma text_le_total : Total text_le.
Proof. intros a b. unfold text_le. apply (total name_le). Qed.
Lemma text_le_trans : Transitive text_le.
Proof. intros a b c. unfold text_le. apply (transitivity (R := name_le)). Qed.
Theorem C82_packages b : NoDup (all_packages b) /\ StronglySorted text_le (all_packages b) /\
  forall p, p ∈ all_packages b <-> exists s l a, s ∈ bk_statements b /\ l ∈ lines_of (sm_content s) /\ first_load l a p.
Proof.
  unfold all_packages. split_and!.
  - rewrite merge_sort_Permutation. apply NoDup_remove_dups.
  - apply StronglySorted_merge_sort; [apply text_le_trans|apply text_le_total].
  - intros p. rewrite merge_sort_Permutation, elem_of_remove_dups, elem_of_list_bind. split.
    + intros (s & Hp & Hs). apply (loads_elem _ _ _ (find_lines (sm_content s))) in Hp as (l & a & ? & ?). by exists s, l, a.
    + intros (s & l & a & Hs & Hl & Hf). exists s. split; [|done]. apply (loads_elem _ _ _ (find_lines (sm_content s))). by exists l, a.
Qed.

(** ** The booklet *)
Lemma lines_line a r : lines_of (line a ++ r) = lines_of a ++ lines_of r.
Proof. unfold line. rewrite <- app_assoc. apply lines_app. Qed.
Lemma load_newline l a p : first_load l a p -> newline ∉ l -> newline ∉ p.
Proof. intros (-> & _) H%not_elem_of_app. apply H. Qed.
Lemma packages_newline b : Forall (fun l => newline ∉ l) (all_packages b).
Proof.
  apply Forall_forall. intros p Hp. apply C82_packages in Hp as (s & l & a & _ & Hl & Hf). eapply load_newline; [exact Hf|]. pose proof (lines_none (sm_content s)) as H. rewrite Forall_forall in H. by apply H.
Qed.
Ltac no_nl := rewrite ?not_elem_of_cons, ?not_elem_of_app; split_and?; try done; try (apply (bool_decide_unpack _); vm_compute; exact Logic.I).
Lemma or_empty_newline o : match o with Some s => one_line s | None => True end -> newline ∉ or_empty o.
Proof. destruct o; [done|]. intros _. apply not_elem_of_nil. Qed.
Lemma braces_newline t : newline ∉ t -> newline ∉ braces t.
Proof. intros H. unfold braces. no_nl. Qed.
(** The lines of the source: the options of the document, the packages, the document with the page of introduction and the imports of the statements, in their order *)
Theorem C82_booklet d cwd b : one_lines b -> exists ps is, lines_of (booklet_tex d cwd b) =
    preamble (bk_config b) ++ ps ++ [[]; tex "begin{document}"] ++ lines_of (tab :: intro_page d cwd b) ++ contest_lines (bk_config b) ++
    is ++ [tab :: tex "end{contest}"; tex "end{document}"] /\
  (ps = all_packages b \/ all_packages b = [] /\ ps = [[]]) /\
  (indented (map import_of (bk_statements b)) is \/ bk_statements b = [] /\ is = [[tab; tab]]).
Proof.
  intros (H1 & H2 & H3 & H4 & H5).
  exists (lines_of (unlines [newline] (all_packages b))), (lines_of (tab :: tab :: unlines [newline] (map import_line (bk_statements b)))). split_and!.
  - unfold booklet_tex, cmd. rewrite !lines_line. apply Forall_cons in H4 as [H4a H4]. apply Forall_cons in H4 as [H4b H4]. apply Forall_cons in H4 as [H4c H4]. apply Forall_cons in H4 as [H4d _].
    apply or_empty_newline, braces_newline in H4a, H4b, H4c, H4d.
    rewrite (lines_no (backslash :: chars "documentclass[%" ++ [])) by no_nl.
    rewrite (lines_no (tab :: chars (bc_language (bk_config b)) ++ chars ",%")) by no_nl.
    rewrite (lines_no (tab :: (if bc_solutions (bk_config b) then chars "showsolutions" else []) ++ chars ",%")) by (destruct (bc_solutions _); no_nl).
    rewrite (lines_no (tab :: (if bc_summary (bk_config b) then chars "showsummary" else []) ++ chars ",%")) by (destruct (bc_summary _); no_nl).
    rewrite (lines_no (chars "]{cms-contest}")) by no_nl.
    rewrite (lines_no (backslash :: chars "usepackage[" ++ chars (bc_font (bk_config b)) ++ chars "]{fontenc}")) by no_nl.
    rewrite (lines_no (backslash :: chars "usepackage[" ++ chars (bc_input (bk_config b)) ++ chars "]{inputenc}")) by no_nl.
    rewrite (lines_no (backslash :: chars "usepackage[" ++ chars (bc_language (bk_config b)) ++ chars "]{babel}")) by no_nl.
    rewrite (lines_no (backslash :: chars "usepackage{bookmark}" ++ [])) by no_nl.
    rewrite (lines_no (backslash :: chars "usepackage{import}" ++ [])) by no_nl.
    rewrite (lines_no (backslash :: chars "begin{document}" ++ [])) by no_nl.
    rewrite (lines_no (tab :: backslash :: chars "begin{contest}" ++ _)) by no_nl.
    rewrite (lines_no (tab :: tab :: backslash :: chars "setContestLogo" ++ _)) by no_nl.
    rewrite (lines_no (tab :: backslash :: chars "end{contest}" ++ [])) by no_nl.
    rewrite (lines_no (backslash :: chars "end{document}" ++ [])) by no_nl.
    change (lines_of []) with [[] : text]. unfold preamble, contest_lines, args, tex. cbn [map concat]. rewrite !app_nil_r.
    destruct (bc_solutions (bk_config b)), (bc_summary (bk_config b)); reflexivity.
  - destruct (decide (all_packages b = [])) as [E|E]; [right; rewrite E; by split|left]. apply lines_join; [done|apply packages_newline].
  - destruct (bk_statements b) as [|s ss]; [right; by split|left].
    assert (Forall (fun l => newline ∉ l) (map import_line (s :: ss))) as Hn.
    { apply Forall_fmap. eapply Forall_impl; [exact H5|]. intros x Hx. unfold compose, import_line. no_nl. }
    assert (forall x xs, Forall (fun l => newline ∉ l) (x :: xs) -> lines_of (tab :: tab :: unlines [newline] (x :: xs)) = (tab :: tab :: x) :: xs) as Hl.
    { intros x xs Hx. destruct xs as [|y ys].
      - apply Forall_cons in Hx as [Hx _]. cbn [unlines]. apply lines_no. no_nl.
      - change (tab :: tab :: unlines [newline] (x :: y :: ys)) with ((tab :: tab :: x) ++ newline :: unlines [newline] (y :: ys)). apply Forall_cons in Hx as [Hx Hy]. rewrite lines_app, lines_no by no_nl.
        by rewrite lines_join. }
    cbn [map] in *. rewrite Hl by done. unfold indented. constructor; [by exists 2|]. apply Forall2_fmap_l. clear. induction ss; cbn; constructor; [by exists 0|done].
Qed.
(** Each package is loaded before the document begins, and each statement is imported after that *)
Corollary C82_order d cwd b : one_lines b -> exists before after, lines_of (booklet_tex d cwd b) = before ++ tex "begin{document}" :: after /\
  (forall p, p ∈ all_packages b -> p ∈ before) /\ (forall s, s ∈ bk_statements b -> exists l k, l ∈ after /\ l = replicate k tab ++ import_of s).
Proof.
  intros H. destruct (C82_booklet d cwd b H) as (ps & is & -> & Hp & Hi).
  exists (preamble (bk_config b) ++ ps ++ [[]]), (lines_of (tab :: intro_page d cwd b) ++ contest_lines (bk_config b) ++ is ++ [tab :: tex "end{contest}"; tex "end{document}"]). split_and!.
  - by rewrite <- !app_assoc.
  - intros p Hin. rewrite !elem_of_app. right. left. destruct Hp as [->|[E _]]; [done|]. rewrite E in Hin. by apply elem_of_nil in Hin.
  - intros s Hs. destruct Hi as [Hi|[E _]]; [|rewrite E in Hs; by apply elem_of_nil in Hs]. apply Forall2_fmap_l in Hi. apply elem_of_list_lookup in Hs as [n Hn].
    destruct (Forall2_lookup_l _ _ _ _ _ Hi Hn) as (l & Hl & k & Hk). exists l, k. split; [|done]. rewrite !elem_of_app. right. right. left. by eapply elem_of_list_lookup_2.
Qed.

(** ** Examples *)
Definition tex_of (ls : list string) : text := unlines [newline] (map (fun s => map (fun c => if decide (c = "@"%char) then backslash else c) (chars s)) ls).
Definition a_statement (n : string) (ls : list string) : statement := Statement (config_of (a_task n)) (FPath true ["ct"; n; "statement"; "english.tex"]) (tex_of ls).
Definition a_booklet (ss : list statement) : booklet := Booklet (BookletConfig "english" false true "T1" "utf8" (Some "Finals") None None None None) ss (FPath true ["ct"; "english.pdf"]).
Definition ex_booklet : booklet := a_booklet
  [a_statement "b" ["@usepackage{xcolor} @usepackage{tikz}"; "Sum the numbers."; ""]; a_statement "a" ["Let @usepackage"; "  @usepackage{amsmath} % for the formula"; "@usepackage{xcolor} @usepackage{tikz}"]].
Example C82_ex_lines : one_lines ex_booklet /\ lines_of (booklet_tex ex_book (FPath true []) ex_booklet) = lines_of (
  let tab := String tab "" in tex_of
  ["@documentclass[%"; tab +:+ "english,%"; tab +:+ ",%"; tab +:+ "showsummary,%"; "]{cms-contest}"; ""; "@usepackage[T1]{fontenc}"; "@usepackage[utf8]{inputenc}"; "@usepackage[english]{babel}";
   "@usepackage{bookmark}"; "@usepackage{import}"; ""; "@usepackage{amsmath} % for the formula"; "@usepackage{xcolor} @usepackage{tikz}"; ""; "@begin{document}"; tab; tab +:+ "@begin{contest}{Finals}{}{}";
   tab +:+ tab +:+ "@setContestLogo{}"; tab +:+ tab +:+ "@subimport{./b/}{statement.tex}"; "@subimport{./a/}{statement.tex}"; tab +:+ "@end{contest}"; "@end{document}"]).
Proof. split; [|vm_compute; reflexivity]. unfold one_lines, one_line. cbn zeta. split_and!; repeat constructor; try (apply (bool_decide_unpack _); vm_compute; exact Logic.I). Qed.
Example C82_ex_statement : statement_tex (a_statement "a" ["Let @usepackage"; "  @usepackage{amsmath} % for the formula"; "end"]) =
  tex_of ["@begin{problem}{Task a}{a}{}{}{1}{256}{}{}"; "Let @usepackage"; "  % @usepackage{amsmath} % for the formula"; "end"; "@end{problem}"].
Proof. vm_compute. reflexivity. Qed.

(** ** What does not hold *)
(** A package that the author has commented out is loaded *)
Theorem C82_comment_refuted : let s := a_statement "a" ["% @usepackage{old}"] in
  (forall l, l ∈ lines_of (sm_content s) -> ~ runs_load l) /\ chars "\usepackage{old}" ∈ all_packages (a_booklet [s]).
Proof.
  cbn zeta. split; [|apply (bool_decide_unpack _); vm_compute; exact Logic.I]. intros l Hl. apply (elem_of_list_singleton l (chars "% \usepackage{old}")) in Hl as ->.
  intros (a & p & E & Ha & Hp). destruct a as [|x a]; [cbn [app] in E; rewrite <- E in Hp; by destruct Hp as (c & r & [=])|]. injection E as <- _. by inversion Ha.
Qed.
(** After a backslash, the percent sign does not begin a comment: a line that loads nothing becomes one that loads a package after the beginning of the document *)
Theorem C82_escape_refuted : exists l l', commented l l' /\ ~ runs_load l /\ runs_load l' /\
  statement_tex (Statement (config_of (a_task "a")) (FPath true ["ct"; "a"; "statement"; "english.tex"]) l) =
    begin_problem (config_of (a_task "a")) ++ newline :: l' ++ newline :: tex "end{problem}".
Proof.
  set (l := tex_of ["x@@usepackage{y}"]). exists l, (patch false l). split_and!.
  - apply patch_line. apply (bool_decide_unpack _). vm_compute. exact Logic.I.
  - intros (a & p & E & Ha & Hp). change l with ("x"%char :: backslash :: backslash :: chars "usepackage{y}") in E.
    destruct a as [|x1 [|x2 [|x3 a]]].
    + cbn [app] in E. rewrite <- E in Hp. by destruct Hp as (c & r & [=]).
    + injection E as _ E. cbn [app] in E. rewrite <- E in Hp. by destruct Hp as (c & r & [=]).
    + injection E as <- <- _. inversion Ha as [| |? ? ? ? H]; subst. by inversion H.
    + injection E as <- <- <- E. clear Ha. destruct Hp as (c & r & ->). assert (backslash ∈ chars "usepackage{y}") as Hb. { change (chars "usepackage{y}") with (list_ascii_of_string "usepackage{y}"). cbn [list_ascii_of_string]. rewrite E. apply elem_of_app. right. left. }
      revert Hb. apply (bool_decide_unpack _). vm_compute. exact Logic.I.
  - exists (chars "x\% "), (chars "\usepackage{y}"). split_and!; [by vm_compute| |by eexists _, _].
    change (chars "x\% ") with ["x"%char; backslash; "%"%char; " "%char]. apply live_char; [done..|]. apply live_escape. apply live_char; [done..|]. constructor.
  - vm_compute. reflexivity.
Qed.
(** The packages are not in the order of the author *)
Theorem C82_order_refuted : let s := a_statement "a" ["@usepackage{b}"; "@usepackage{a}"] in
  packages s = [chars "\usepackage{b}"; chars "\usepackage{a}"] /\ all_packages (a_booklet [s]) = [chars "\usepackage{a}"; chars "\usepackage{b}"].
Proof. cbn zeta. split; vm_compute; reflexivity. Qed.
(** A command with its arguments in more lines is cut *)
Theorem C82_multiline_refuted : let s := a_statement "a" ["@usepackage["; "  utf8]{inputenc}"] in
  all_packages (a_booklet [s]) = [chars "\usepackage["] /\ lines_of (patch false (sm_content s)) = [chars "% \usepackage["; chars "  utf8]{inputenc}"].
Proof. cbn zeta. split; vm_compute; reflexivity. Qed.
(** The page of introduction is looked for in the current directory, not in that of the contest; if it is not there, there is no page and no error *)
Theorem C82_intro_refuted : let d := book_of [(["ct"; "intro.tex"], chars "Welcome")] None in
  let b := Booklet (BookletConfig "english" false true "T1" "utf8" None None None None (Some (FPath false ["intro.tex"]))) [] (FPath true ["ct"; "english.pdf"]) in
  intro_page d (FPath true ["ct"]) b = chars "Welcome" /\ intro_page d (FPath true ["ct"; "a"]) b = [].
Proof. cbn zeta. split; vm_compute; reflexivity. Qed.

Print Assumptions C82_statement.
Print Assumptions C82_no_load.
Print Assumptions C82_unchanged.
Print Assumptions C82_packages.
Print Assumptions C82_booklet.
Print Assumptions C82_order.
