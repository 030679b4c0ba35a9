(** * StmtProps2: C86, the statement that cms uses *)
From Verif Require Export StmtModel StmtSpec.
From Verif Require Import BookletProofs2 LangProofs2.
From Coq Require Import Ascii String NArith Lia.
From stdpp Require Import base list.
Local Open Scope nat_scope.

Lemma official_spec d task p : find_statement_pdf d task = Some p <-> exists name, official d task p name.
Proof.
  unfold find_statement_pdf, official, there. cbn [List.find].
  assert (forall a b, child (child task a) b = in_task task a b) as Hc by (intros a b; unfold child, in_task; cbn; by rewrite <- app_assoc). rewrite !Hc.
  set (p1 := in_task task "statement" "statement.pdf"). set (p2 := in_task task "testo" "testo.pdf").
  destruct (pd_exists d p1 || pd_link d p1) eqn:E1; [apply orb_true_iff in E1|apply orb_false_iff in E1 as [E1 E1']].
  - split; [intros [= <-]; eexists; left; done|]. intros (name & [(-> & _)|(-> & _ & _ & H)]); done.
  - destruct (pd_exists d p2 || pd_link d p2) eqn:E2; [apply orb_true_iff in E2|apply orb_false_iff in E2 as [E2 E2']].
    + split; [intros [= <-]; eexists; right; split_and!; [done|done|done|]; intros []; congruence|]. intros (name & [(-> & _ & [|])|(-> & _)]); congruence.
    + split; [done|]. intros (name & [(-> & _ & [|])|(-> & _ & [|] & _)]); congruence.
Qed.
Lemma official_none d task : find_statement_pdf d task = None <-> ~ there d (in_task task "statement" "statement.pdf") /\ ~ there d (in_task task "testo" "testo.pdf").
Proof.
  unfold find_statement_pdf, there. cbn [List.find].
  assert (forall a b, child (child task a) b = in_task task a b) as Hc by (intros a b; unfold child, in_task; cbn; by rewrite <- app_assoc). rewrite !Hc.
  destruct (pd_exists d (in_task task "statement" "statement.pdf")), (pd_link d (in_task task "statement" "statement.pdf")), (pd_exists d (in_task task "testo" "testo.pdf")), (pd_link d (in_task task "testo" "testo.pdf")); cbn; naive_solver.
Qed.
Lemma path_of_in task a b : path_of task (in_task task a b) = FPath false [a; b].
Proof.
  unfold path_of, in_task. cbn [p_abs p_comps]. rewrite bool_decide_true by done. assert (forall l r, strip_comps l (l ++ r) = Some r) as H; [|by rewrite H].
  intros l r. induction l as [|x l IH]; [done|]. cbn [app strip_comps]. by rewrite decide_True.
Qed.
Lemma official_path d task p name : official d task p name -> chars (show_path (path_of task p)) = chars name.
Proof. by intros [(-> & -> & _)|(-> & -> & _)]; rewrite path_of_in. Qed.
Lemma official_name d task p n1 n2 : official d task p n1 -> official d task p n2 -> n1 = n2.
Proof. intros [(E & -> & _)|(E & -> & _)] [(E' & -> & _)|(E' & -> & _)]; try done; exfalso; rewrite E in E'; unfold in_task in E'; injection E' as E'; apply app_inv_head in E'; done. Qed.

(** StatementValid: the hook is happy if and only if the official statement can be opened and begins like a PDF *)
Theorem C86_valid d task bs : statement_valid d task bs = ([], false) <->
  exists p name t rest, official d task p name /\ pd_exists d p = true /\ pd_read d p = Some t /\ t = chars "%PDF" ++ rest.
Proof.
  unfold statement_valid. destruct (find_statement_pdf d task) as [p|] eqn:E.
  - pose proof E as Ho. rewrite official_spec in Ho. destruct Ho as [name Ho]. assert (forall q n, official d task q n -> q = p) as Hq. { intros q n Hq. assert (find_statement_pdf d task = Some q) by (apply official_spec; by exists n). congruence. }
    destruct (pd_exists d p) eqn:Ex.
    + destruct (pd_read d p) as [t|] eqn:Er.
      * destruct (decide (take 4 t = chars "%PDF")) as [Et|Et].
        -- split; [intros _|done]. exists p, name, t, (drop 4 t). split_and!; try done. by rewrite <- Et, take_drop.
        -- split; [done|]. intros (q & n & t' & rest & H & _ & Hr & ->). rewrite (Hq _ _ H) in Hr. assert (t = chars "%PDF" ++ rest) as -> by congruence. exfalso. by apply Et.
      * split; [done|]. intros (q & n & t' & rest & H & _ & Hr & _). rewrite (Hq _ _ H) in Hr. congruence.
    + destruct (pd_link d p) eqn:El.
      * split; [done|]. intros (q & n & t' & rest & H & Hx & _). rewrite (Hq _ _ H) in Hx. congruence.
      * exfalso. clear -Ho Ex El. destruct Ho as [(_ & _ & [|])|(_ & _ & [|] & _)]; congruence.
  - split.
    + destruct bs as [|b bs]; [done|]. by destruct (file_name (bk_dest b)).
    + intros (p & name & _ & _ & H & _). assert (find_statement_pdf d task = Some p) by (apply official_spec; by exists name). congruence.
Qed.
(** What it says otherwise *)
Theorem C86_missing d task bs : (forall b, b ∈ bs -> file_name (bk_dest b) <> None) ->
  (exists h, statement_valid d task bs = ([PMissing h], false)) <-> ~ there d (in_task task "statement" "statement.pdf") /\ ~ there d (in_task task "testo" "testo.pdf").
Proof.
  intros Hb. rewrite <- official_none. unfold statement_valid. destruct (find_statement_pdf d task) as [p|].
  - split; [|done]. intros [h H]. destruct (pd_exists d p); [destruct (pd_read d p); [destruct (decide _)|]|destruct (pd_link d p)]; done.
  - split; [done|]. intros _. destruct bs as [|b bs]; [by eexists|]. destruct (file_name (bk_dest b)) eqn:E; [by eexists|]. exfalso. eapply Hb; [left|done].
Qed.
Theorem C86_help d task b bs n : ~ there d (in_task task "statement" "statement.pdf") -> ~ there d (in_task task "testo" "testo.pdf") -> file_name (bk_dest b) = Some n ->
  statement_valid d task (b :: bs) = ([PMissing (Some n)], false) /\ statement_valid d task [] = ([PMissing None], false).
Proof. intros H1 H2 H. pose proof (proj2 (official_none d task) (conj H1 H2)) as E. unfold statement_valid. by rewrite E, H. Qed.
Theorem C86_invalid d task bs q : statement_valid d task bs = ([PInvalid q], false) <->
  exists p name t, official d task p name /\ q = path_of task p /\ pd_exists d p = true /\ pd_read d p = Some t /\ ~ exists rest, t = chars "%PDF" ++ rest.
Proof.
  unfold statement_valid. destruct (find_statement_pdf d task) as [p|] eqn:E.
  - pose proof E as Ho. rewrite official_spec in Ho. destruct Ho as [name Ho]. assert (forall q n, official d task q n -> q = p) as Hq. { intros q' n Hq. assert (find_statement_pdf d task = Some q') by (apply official_spec; by exists n). congruence. }
    destruct (pd_exists d p) eqn:Ex.
    + destruct (pd_read d p) as [t|] eqn:Er.
      * destruct (decide (take 4 t = chars "%PDF")) as [Et|Et].
        -- split; [done|]. intros (p' & n & t' & H & _ & _ & Hr & Hn). rewrite (Hq _ _ H) in Hr. exfalso. apply Hn. exists (drop 4 t). assert (t' = t) as -> by congruence. by rewrite <- Et, take_drop.
        -- split; [intros [= <-]|]. { exists p, name, t. split_and!; try done. intros [rest ->]. by apply Et. } intros (p' & n & t' & H & -> & _). by rewrite (Hq _ _ H).
      * split; [done|]. intros (p' & n & t' & H & _ & _ & Hr & _). rewrite (Hq _ _ H) in Hr. congruence.
    + split; [by destruct (pd_link d p)|]. intros (p' & n & t' & H & _ & Hx & _). rewrite (Hq _ _ H) in Hx. congruence.
  - split; [destruct bs as [|b bs]; [done|]; by destruct (file_name (bk_dest b))|]. intros (p & name & _ & H & _). assert (find_statement_pdf d task = Some p) by (apply official_spec; by exists name). congruence.
Qed.
Theorem C86_broken d task bs q : statement_valid d task bs = ([PBroken q], false) <-> exists p name, official d task p name /\ q = path_of task p /\ pd_exists d p = false.
Proof.
  unfold statement_valid. destruct (find_statement_pdf d task) as [p|] eqn:E.
  - pose proof E as Ho. rewrite official_spec in Ho. destruct Ho as [name Ho]. assert (forall q n, official d task q n -> q = p) as Hq. { intros q' n Hq. assert (find_statement_pdf d task = Some q') by (apply official_spec; by exists n). congruence. }
    destruct (pd_exists d p) eqn:Ex.
    + split; [destruct (pd_read d p); [by destruct (decide _)|done]|]. intros (p' & n & H & _ & Hx). rewrite (Hq _ _ H) in Hx. congruence.
    + destruct (pd_link d p) eqn:El.
      * split; [intros [= <-]; by exists p, name|]. intros (p' & n & H & -> & _). by rewrite (Hq _ _ H).
      * exfalso. clear -Ho Ex El. destruct Ho as [(_ & _ & [|])|(_ & _ & [|] & _)]; congruence.
  - split; [destruct bs as [|b bs]; [done|]; by destruct (file_name (bk_dest b))|]. intros (p & name & H & _). assert (find_statement_pdf d task = Some p) by (apply official_spec; by exists name). congruence.
Qed.
(** At most one diagnostic *)
Theorem C86_one d task bs : length (fst (statement_valid d task bs)) <= 1.
Proof.
  unfold statement_valid. destruct (find_statement_pdf d task) as [p|].
  - destruct (pd_exists d p); [destruct (pd_read d p); [destruct (decide _)|]|destruct (pd_link d p)]; cbn; lia.
  - destruct bs as [|b bs]; [cbn; lia|]. destruct (file_name (bk_dest b)); cbn; lia.
Qed.

(** StatementCompiled: the warning *)
Theorem C86_compiled d task bs x : x ∈ statement_compiled d task bs <->
  exists p name target, bs <> [] /\ official d task p name /\ pd_canon d p = Some target /\ (forall b, b ∈ bs -> pd_canon d (bk_dest b) <> Some target)
    /\ x = PNotCompiled (path_of task p) (map (path_of task) (omap (fun b => pd_canon d (bk_dest b)) bs)).
Proof.
  unfold statement_compiled. destruct bs as [|b0 bs0]; [split; [intros H; by apply elem_of_nil in H|by intros (? & ? & ? & ? & _)]|]. remember (b0 :: bs0) as bs eqn:Eb. assert (bs <> []) as Hbs by (by rewrite Eb). clear Eb.
  destruct (find_statement_pdf d task) as [p|] eqn:E.
  - pose proof E as Ho. rewrite official_spec in Ho. destruct Ho as [name Ho]. assert (forall q n, official d task q n -> q = p) as Hq. { intros q' n Hq. assert (find_statement_pdf d task = Some q') by (apply official_spec; by exists n). congruence. }
    destruct (pd_canon d p) as [target|] eqn:Ec.
    + destruct (decide _) as [Hd|Hd].
      * split; [intros H; by apply elem_of_nil in H|]. intros (q & n & tg & _ & H & Hc & Hn & _). rewrite (Hq _ _ H) in Hc. apply elem_of_list_omap in Hd as (b & Hb & Hcb). exfalso. apply (Hn b Hb). congruence.
      * rewrite elem_of_list_singleton. split.
        -- intros ->. exists p, name, target. split_and!; try done.

           intros b Hb Hcb. apply Hd. apply elem_of_list_omap. by exists b.
        -- intros (q & n & tg & _ & H & _ & _ & ->). by rewrite (Hq _ _ H).
    + split; [intros H; by apply elem_of_nil in H|]. intros (q & n & tg & _ & H & Hc & _). rewrite (Hq _ _ H) in Hc. congruence.
  - split; [intros H; by apply elem_of_nil in H|]. intros (q & n & tg & _ & H & _). assert (find_statement_pdf d task = Some q) by (apply official_spec; by exists n). congruence.
Qed.

(** StatementGit *)
Lemma split_git names : Forall (fun n => zero_byte ∉ chars n) names -> split_on nul (git_output names) = map chars names ++ [[]].
Proof.
  change zero_byte with nul. unfold git_output. change zero_byte with nul. induction 1 as [|n names Hn _ IH]; [done|]. cbn [map concat]. rewrite <- app_assoc. cbn [app]. rewrite split_app, split_no by done. by rewrite IH.
Qed.
Theorem C86_git d task names : pd_git d = Some (git_output names) -> Forall (fun n => zero_byte ∉ chars n) names -> forall x,
  x ∈ statement_git d task <-> exists p name, official d task p name /\ names <> [] /\ name ∉ names /\ x = PNotInGit (path_of task p).
Proof.
  intros Hg Hn x. unfold statement_git. destruct (find_statement_pdf d task) as [p|] eqn:E.
  - pose proof E as Ho. rewrite official_spec in Ho. destruct Ho as [name Ho]. assert (forall q n, official d task q n -> q = p) as Hq. { intros q' n Hq. assert (find_statement_pdf d task = Some q') by (apply official_spec; by exists n). congruence. }
    rewrite Hg. destruct (git_output names) as [|c out] eqn:Eg.
    + split; [intros H; by apply elem_of_nil in H|]. intros (q & n & _ & H & _). destruct names as [|n0 names]; [done|]. unfold git_output in Eg. cbn [map concat] in Eg. apply app_eq_nil in Eg as [Eg _]. by apply app_eq_nil in Eg as [_ Eg].
    + rewrite <- Eg, split_git by done. rewrite (official_path _ _ _ _ Ho).
      assert (chars name ∈ map chars names ++ [[]] <-> name ∈ names) as Hm.
      { rewrite elem_of_app, elem_of_list_singleton. split.
        - intros [H|H]; [|exfalso; by destruct Ho as [(_ & -> & _)|(_ & -> & _)]]. apply elem_of_list_fmap in H as (n & En & Hin). assert (name = n) as ->; [|done].
          rewrite <- (string_of_list_ascii_of_string name), <- (string_of_list_ascii_of_string n). unfold chars in En. by rewrite En.
        - intros H. left. apply elem_of_list_fmap. by exists name. }
      destruct (decide _) as [Hd|Hd].
      * split; [intros H; by apply elem_of_nil in H|]. intros (q & n & H & _ & Hni & _). rewrite (Hq _ _ H) in H. rewrite (official_name _ _ _ _ _ H Ho) in Hni. tauto.
      * rewrite elem_of_list_singleton. split.
        -- intros ->. exists p, name. split_and!; try done; [|tauto]. intros ->. by unfold git_output in Eg.
        -- intros (q & n & H & _ & _ & ->). by rewrite (Hq _ _ H).
  - split; [intros H; by apply elem_of_nil in H|]. intros (q & n & H & _). assert (find_statement_pdf d task = Some q) by (apply official_spec; by exists n). congruence.
Qed.
Theorem C86_no_git d task : pd_git d = None -> statement_git d task = [].
Proof. intros H. unfold statement_git. rewrite H. by destruct (find_statement_pdf d task). Qed.

(** ** Examples *)
Definition ex_task : fpath := FPath true ["home"; "task"].
Definition ex_pdf (valid linked git : bool) : pdf_disk :=
  PdfDisk (fun p => bool_decide (p = in_task ex_task "testo" "testo.pdf")) (fun p => bool_decide (p = in_task ex_task "testo" "testo.pdf"))
    (fun p => if bool_decide (p = in_task ex_task "testo" "testo.pdf") then Some (chars (if valid then "%PDF-1.5" else "%PD")) else None)
    (fun p => if bool_decide (p = in_task ex_task "testo" "testo.pdf") then Some (if linked then in_task ex_task "testo" "english.pdf" else p) else Some p)
    (Some (git_output (if git then ["task.yaml"; "testo/testo.pdf"] else ["task.yaml"]))).
Definition ex_booklet : booklet := Booklet (BookletConfig "english" false false "" "" None None None None None) [] (in_task ex_task "testo" "english.pdf").
Example C86_ex_ok : statement_valid (ex_pdf true true true) ex_task [ex_booklet] = ([], false) /\ statement_compiled (ex_pdf true true true) ex_task [ex_booklet] = [] /\ statement_git (ex_pdf true true true) ex_task = [].
Proof. split_and!; vm_compute; reflexivity. Qed.
Example C86_ex_bad : statement_valid (ex_pdf false false false) ex_task [ex_booklet] = ([PInvalid (FPath false ["testo"; "testo.pdf"])], false)
  /\ statement_compiled (ex_pdf false false false) ex_task [ex_booklet] = [PNotCompiled (FPath false ["testo"; "testo.pdf"]) [FPath false ["testo"; "english.pdf"]]]
  /\ statement_git (ex_pdf false false false) ex_task = [PNotInGit (FPath false ["testo"; "testo.pdf"])].
Proof. split_and!; vm_compute; reflexivity. Qed.
Print Assumptions C86_valid.
Print Assumptions C86_missing.
Print Assumptions C86_help.
Print Assumptions C86_invalid.
Print Assumptions C86_broken.
Print Assumptions C86_one.
Print Assumptions C86_compiled.
Print Assumptions C86_git.
Print Assumptions C86_no_git.
