(** * BookletProps: C81, the booklets of a task and of a contest *)
From Verif Require Export BookletModel BookletSpec FindSpec LangSpec.
From Verif Require Import BookletProofs FindProofs FindProofs2 FindProofs3 FindProps LangProofs LangProofs2 LangProofs3.
From Coq Require Import Ascii String.
From stdpp Require Import base list sorting.
Local Open Scope nat_scope.

(** ** The booklets of a task *)
(** There is one booklet for each file .tex of statement/ and testo/, in this order; it has that statement only, the settings of the contest of the task,
    and goes in the file .pdf next to the source *)
Theorem C81_task d t sol bs : good_tree (bd_tree d) -> ordinary (td_path t) -> no_hidden d (td_path t) -> make_task_booklets d t sol = inl bs ->
  exists ls1 ls2, languages_in d (td_path t) "statement" ls1 /\ languages_in d (td_path t) "testo" ls2 /\
  Forall2 (fun x b => task_booklet d t sol x.1 x.2 b) (map (pair "statement") ls1 ++ map (pair "testo") ls2) bs.
Proof.
  intros Hg Ho Hh H. exists (languages d (td_path t) "statement"), (languages d (td_path t) "testo").
  assert (forall dir, dir ∈ statement_dirs -> languages_in d (td_path t) dir (languages d (td_path t) dir)) as Hl by (intros; by apply languages_spec).
  split_and!; [apply Hl; left|apply Hl; right; left|]. unfold make_task_booklets in H. rewrite statement_files in H by done. apply rmap_ok in H.
  assert (forall dir x b, dir ∈ statement_dirs -> x ∈ languages d (td_path t) dir ->
    rbind (new_statement d (tex_path (td_path t) dir x) (config_of t)) (fun s => match parent (td_path t) with None => inr BRoot | Some q => rbind (from_contest d x q sol) (fun c => inl (Booklet c [s] (with_ext (tex_path (td_path t) dir x) "pdf"))) end) = inl b ->
    task_booklet d t sol dir x b) as Hb.
  { intros dir x b Hd Hx Hb. apply (Hl dir Hd) in Hx as Hw. unfold rbind in Hb. destruct (new_statement _ _ _) as [s|] eqn:Es; [|done]. apply statement_ok in Es.
    destruct (parent (td_path t)) as [q|] eqn:Eq; [|done]. destruct (from_contest _ _ _ _) as [c|] eqn:Ec; [|done]. apply settings_ok in Ec. injection Hb as <-.
    exists s, q. split_and!; try done. cbn. apply with_pdf; [by destruct Hw|by eapply written_plain]. }
  apply Forall2_app_inv_l in H as (bs1 & bs2 & H1 & H2 & ->). apply Forall2_mapl, Forall2_mem in H1, H2. cbn [fst snd] in H1, H2.
  apply Forall2_app; apply Forall2_mapl; cbn [fst snd].
  - eapply Forall2_impl; [exact H1|]. intros x b [Hx Hxb]. apply Hb; [left|done|done].
  - eapply Forall2_impl; [exact H2|]. intros x b [Hx Hxb]. apply Hb; [right; left|done|done].
Qed.
(** It fails only if a statement cannot be read, or the task is the root, or contest.yaml is not valid (and then there is at least one statement) *)
Theorem C81_task_fails d t sol : good_tree (bd_tree d) -> ordinary (td_path t) -> no_hidden d (td_path t) ->
  (exists e, make_task_booklets d t sol = inr e) <-> exists dir lang, written d (td_path t) dir lang /\
    (bd_text d (tex_path (td_path t) dir lang) = None \/ parent (td_path t) = None \/ exists q, parent (td_path t) = Some q /\ bd_contest d (child q "contest.yaml") = Some None).
Proof.
  intros Hg Ho Hh. unfold make_task_booklets. rewrite statement_files by done. rewrite rmap_err.
  assert (forall dir, dir ∈ statement_dirs -> languages_in d (td_path t) dir (languages d (td_path t) dir)) as Hl by (intros; by apply languages_spec).
  assert (forall dir x, (exists e, rbind (new_statement d (tex_path (td_path t) dir x) (config_of t)) (fun s => match parent (td_path t) with None => inr BRoot | Some q => rbind (from_contest d x q sol) (fun c => inl (Booklet c [s] (with_ext (tex_path (td_path t) dir x) "pdf"))) end) = inr e) <->
    (bd_text d (tex_path (td_path t) dir x) = None \/ parent (td_path t) = None \/ exists q, parent (td_path t) = Some q /\ bd_contest d (child q "contest.yaml") = Some None)) as Hf.
  { intros dir x. unfold new_statement, rbind. destruct (bd_text d _) as [tx|]; [|split; [by left|by eexists]]. destruct (parent (td_path t)) as [q|]; [|split; [by right; left|by eexists]].
    split.
    - intros [e He]. right. right. exists q. split; [done|]. apply (settings_err d x q sol). destruct (from_contest d x q sol); [done|by eexists].
    - intros [|[|(q' & [= <-] & H)]]; [done..|]. apply (settings_err d x q sol) in H as [e ->]. by eexists. }
  split.
  - intros ([x p] & e & [(l & [= -> ->] & Hx)%elem_of_list_fmap|(l & [= -> ->] & Hx)%elem_of_list_fmap]%elem_of_app & He).
    + exists "statement", l. split; [apply (Hl "statement"); [left|done]|]. apply Hf. by exists e.
    + exists "testo", l. split; [apply (Hl "testo"); [right; left|done]|]. apply Hf. by exists e.
  - intros (dir & lang & Hw & H). apply Hf in H as [e He]. exists (lang, tex_path (td_path t) dir lang), e. split; [|done].
    assert (dir ∈ statement_dirs) as Hd by apply Hw. apply Hl in Hw; [|done]. apply elem_of_app. unfold statement_dirs in Hd. apply elem_of_cons in Hd as [->|Hd%elem_of_list_singleton]; [left|right; subst dir];
      apply elem_of_list_fmap; by exists lang.
Qed.
(** No two booklets are written in the same file *)
Theorem C81_task_dests d t sol bs : good_tree (bd_tree d) -> ordinary (td_path t) -> no_hidden d (td_path t) -> make_task_booklets d t sol = inl bs -> NoDup (map bk_dest bs).
Proof.
  intros Hg Ho Hh H. destruct (C81_task d t sol bs Hg Ho Hh H) as (ls1 & ls2 & (N1 & _ & _) & (N2 & _ & _) & HF).
  assert (map bk_dest bs = map (fun x : string * string => child (child (td_path t) x.1) (x.2 +:+ ".pdf")) (map (pair "statement") ls1 ++ map (pair "testo") ls2)) as ->.
  { clear -HF. induction HF as [|x b l k (s & q & _ & _ & _ & _ & E) _ IH]; [done|]. cbn [map]. by rewrite IH, E. }
  assert (forall a b : string, a +:+ ".pdf" = b +:+ ".pdf" -> a = b) as Hp. { intros a b E. apply (f_equal chars) in E. rewrite !chars_app in E. apply app_inv_tail in E. by apply chars_inj. }
  rewrite map_app, !map_map. apply NoDup_app. split_and!.
  - apply NoDup_fmap_2_strong; [|done]. intros a b _ _ [_ E]%child_eq. by apply Hp.
  - intros p (a & -> & _)%elem_of_list_fmap (b & [E _]%child_eq & _)%elem_of_list_fmap. by apply child_eq in E as [_ ?].
  - apply NoDup_fmap_2_strong; [|done]. intros a b _ _ [_ E]%child_eq. by apply Hp.
Qed.

(** ** The booklets of a contest *)
Lemma same_contest_ok dir tasks : same_contest dir tasks = inl tt <-> Forall (fun t => parent (td_path t) = Some dir) tasks.
Proof.
  induction tasks as [|t ts IH]; cbn [same_contest]; [split; [constructor|done]|]. rewrite Forall_cons. destruct (parent (td_path t)) as [q|]; [|split; [done|by intros [? _]]].
  case_decide as E; [subst; rewrite IH; naive_solver|]. split; [done|]. intros [[= ->] _]. done.
Qed.
Definition files_list d (t : task_data) : list (string * fpath) :=
  map (fun l => (l, tex_path (td_path t) "statement" l)) (languages d (td_path t) "statement") ++ map (fun l => (l, tex_path (td_path t) "testo" l)) (languages d (td_path t) "testo").
Lemma all_files d tasks : good_tree (bd_tree d) -> Forall (fun t => ordinary (td_path t) /\ no_hidden d (td_path t)) tasks ->
  mapM (fun t => match find_statement_files d (td_path t) with Some l => Some (t, l) | None => None end) tasks = Some (map (fun t => (t, files_list d t)) tasks).
Proof.
  intros Hg H. apply mapM_Some. induction H as [|t ts [H1 H2] _ IH]; [constructor|]. cbn [map]. constructor; [by rewrite statement_files|done].
Qed.
(** the statements in a language *)
Definition dirs_of d lang (t : task_data) : list string := filter (fun dir => lang ∈ languages d (td_path t) dir) statement_dirs.
Lemma sub_filter {A} (P : A -> Prop) `{forall x, Decision (P x)} (l : list A) : filter P l `sublist_of` l.
Proof. induction l as [|x l IH]; [constructor|]. destruct (decide (P x)); [rewrite filter_cons_True by done|rewrite filter_cons_False by done]; by constructor. Qed.
Lemma places_of d lang tasks : good_tree (bd_tree d) -> Forall (fun t => ordinary (td_path t) /\ no_hidden d (td_path t)) tasks ->
  places d lang tasks (tasks ≫= fun t => map (pair t) (dirs_of d lang t)).
Proof.
  intros Hg H. induction H as [|t ts [H1 H2] _ IH]; [constructor|]. rewrite bind_cons. constructor; [|apply sub_filter|done].
  intros dir. unfold dirs_of. rewrite elem_of_list_filter. split.
  - intros [H Hd]. by apply (languages_spec d (td_path t) Hg H2 dir Hd).
  - intros H. assert (dir ∈ statement_dirs) as Hd by apply H. split; [|done]. by apply (languages_spec d (td_path t) Hg H2 dir Hd).
Qed.
Lemma filter_one (f : string -> fpath) (t : task_data) lang ls : NoDup ls ->
  map snd (filter (fun x => fst x = lang) (map (fun y : string * fpath => (fst y, (t, snd y))) (map (fun l => (l, f l)) ls))) = if decide (lang ∈ ls) then [(t, f lang)] else [].
Proof.
  induction ls as [|l ls IH]; intros H; [done|]. apply NoDup_cons in H as [H1 H2]. cbn [map fst snd]. destruct (decide (l = lang)) as [->|Hl].
  - rewrite filter_cons_True by done. cbn [map snd]. rewrite IH by done. rewrite decide_False by done. rewrite decide_True by left. done.
  - rewrite filter_cons_False by done. rewrite IH by done. destruct (decide (lang ∈ ls)) as [Hi|Hi]; [rewrite decide_True by (by right); done|]. rewrite decide_False; [done|]. intros [->|?]%elem_of_cons; done.
Qed.
Lemma in_language d lang tasks : good_tree (bd_tree d) -> Forall (fun t => ordinary (td_path t) /\ no_hidden d (td_path t)) tasks ->
  map snd (filter (fun x => fst x = lang) (map (fun t => (t, files_list d t)) tasks ≫= fun x => map (fun y => (fst y, (fst x, snd y))) (snd x))) =
  tasks ≫= fun t => map (fun dir => (t, tex_path (td_path t) dir lang)) (dirs_of d lang t).
Proof.
  intros Hg H. induction H as [|t ts [H1 H2] _ IH]; [done|]. cbn [map]. rewrite !bind_cons, filter_app, map_app, IH. cbn [fst snd]. f_equal.
  unfold files_list. rewrite map_app, filter_app, map_app.
  rewrite !filter_one by (apply (languages_spec d (td_path t) Hg H2); [(left || right; left)]). unfold dirs_of, statement_dirs.
  destruct (decide (lang ∈ languages d (td_path t) "statement")) as [A|A]; [rewrite filter_cons_True by done|rewrite filter_cons_False by done];
  (destruct (decide (lang ∈ languages d (td_path t) "testo")) as [B|B]; [rewrite filter_cons_True by done|rewrite filter_cons_False by done]); done.
Qed.
Section contest.
  Context (ord : list (string * list (task_data * fpath)) -> list (string * list (task_data * fpath))) (d : book_disk) (tasks : list task_data) (sol : bool).
  Hypothesis Hord : forall l, ord l ≡ₚ l.
  Hypothesis Hg : good_tree (bd_tree d).
  Hypothesis Ht : Forall (fun t => ordinary (td_path t) /\ no_hidden d (td_path t)) tasks.
  Let groups := ord (by_language (map (fun t => (t, files_list d t)) tasks)).
  Let group lang := tasks ≫= fun t => map (fun dir => (t, tex_path (td_path t) dir lang)) (dirs_of d lang t).
  Lemma groups_keys : NoDup (map fst groups).
  Proof using Hord.
    unfold groups. assert (map fst (ord (by_language (map (fun t => (t, files_list d t)) tasks))) ≡ₚ map fst (by_language (map (fun t => (t, files_list d t)) tasks))) as -> by by rewrite Hord.
    rewrite by_language_pushes. apply (pushes_spec _ []). constructor.
  Qed.
  Lemma groups_spec lang xs : (lang, xs) ∈ groups <-> xs <> [] /\ xs = group lang.
  Proof using Hord Hg Ht.
    unfold groups. rewrite (Hord _), by_language_pushes. set (l := _ ≫= _). destruct (pushes_spec l []) as [H1 H2]; [constructor|]. rewrite <- aget_In by done.
    rewrite H2. unfold l. rewrite in_language by done. fold (group lang). cbn [aget]. destruct (group lang) as [|x g]; [split; [done|by intros [? ->]]|]. cbn [app]. split; [by intros [= <-]|by intros [_ ->]].
  Qed.
  Lemma group_written lang : group lang <> [] <-> exists t dir, t ∈ tasks /\ written d (td_path t) dir lang.
  Proof using Hg Ht.
    unfold group. split.
    - destruct (tasks ≫= _) as [|x g] eqn:E; [done|]. intros _. assert (x ∈ x :: g) as Hx by left. rewrite <- E in Hx. apply elem_of_list_bind in Hx as (t & (dir & -> & Hd)%elem_of_list_fmap & Hin).
      exists t, dir. split; [done|]. unfold dirs_of in Hd. apply elem_of_list_filter in Hd as [Hl Hd]. rewrite Forall_forall in Ht. destruct (Ht t Hin) as [_ Hh]. by apply (languages_spec d (td_path t) Hg Hh dir Hd).
    - intros (t & dir & Hin & Hw) E. assert ((t, tex_path (td_path t) dir lang) ∈ tasks ≫= fun t => map (fun dir => (t, tex_path (td_path t) dir lang)) (dirs_of d lang t)) as Hx; [|rewrite E in Hx; by apply elem_of_nil in Hx].
      apply elem_of_list_bind. exists t. split; [|done]. apply elem_of_list_fmap. exists dir. split; [done|]. assert (dir ∈ statement_dirs) as Hd by apply Hw. apply elem_of_list_filter. split; [|done].
      rewrite Forall_forall in Ht. destruct (Ht t Hin) as [_ Hh]. by apply (languages_spec d (td_path t) Hg Hh dir Hd).
  Qed.
  Lemma contest_unfold dir : tasks <> [] -> Forall (fun t => parent (td_path t) = Some dir) tasks ->
    make_contest_booklets ord d tasks sol = rmap (fun x : string * list (task_data * fpath) =>
          rbind (from_contest d (fst x) dir sol) (fun c =>
          rbind (rmap (fun y : task_data * fpath => new_statement d (snd y) (config_of (fst y))) (snd x)) (fun ss =>
          inl (Booklet c ss (child dir (fst x +:+ ".pdf")))))) groups.
  Proof using Hg Ht.
    intros Hne Hp. unfold make_contest_booklets, groups. destruct tasks as [|t0 ts] eqn:E; [done|]. rewrite <- E in *. assert (parent (td_path t0) = Some dir) as ->. { rewrite E in Hp. by apply Forall_cons in Hp as [? _]. }
    apply same_contest_ok in Hp. rewrite Hp. cbn [rbind]. by rewrite all_files.
  Qed.
  (** One booklet for each language in which a task of the contest is written, in the file LANGUAGE.pdf of the contest; it has the statements in that language of all the tasks, in
      the order of the tasks, and the settings of the contest *)
  Theorem C81_contest bs : make_contest_booklets ord d tasks sol = inl bs ->
    (tasks = [] /\ bs = []) \/ exists contest, Forall (fun t => parent (td_path t) = Some contest) tasks /\
      NoDup (map (fun b => bc_language (bk_config b)) bs) /\
      (forall lang, lang ∈ map (fun b => bc_language (bk_config b)) bs <-> exists t dir, t ∈ tasks /\ written d (td_path t) dir lang) /\
      forall b, b ∈ bs -> contest_booklet d contest tasks sol b.
  Proof using Hord Hg Ht.
    intros H. destruct (decide (tasks = [])) as [->|Hne]; [left; split; [done|]; by injection H as <-|]. right.
    assert (exists dir, Forall (fun t => parent (td_path t) = Some dir) tasks) as [dir Hp].
    { unfold make_contest_booklets in H. destruct tasks as [|t0 ts] eqn:E; [done|]. destruct (parent (td_path t0)) as [q|] eqn:Eq; [|done]. exists q. apply same_contest_ok.
      rewrite <- E in *. destruct (same_contest q tasks) as [[]|]; done. }
    exists dir. split; [done|]. rewrite (contest_unfold dir Hne Hp) in H. apply rmap_ok, Forall2_mem in H.
    assert (Forall2 (fun (x : string * list (task_data * fpath)) b => bc_language (bk_config b) = fst x /\ x ∈ groups /\ contest_booklet d dir tasks sol b) groups bs) as HF.
    { eapply Forall2_impl; [exact H|]. intros [lang xs] b [Hx Hb]. cbn [fst snd] in Hb. unfold rbind in Hb. destruct (from_contest d lang dir sol) as [c|] eqn:Ec; [|done]. apply settings_ok in Ec.
      destruct (rmap _ xs) as [ss|] eqn:Es; [|done]. injection Hb as <-. cbn [bk_config bk_statements bk_dest fst]. assert (bc_language c = lang) as El by apply Ec. split_and!; [done|done|].
      unfold contest_booklet. cbn [bk_config bk_statements bk_dest]. rewrite El. split_and!; [done|done|]. apply groups_spec in Hx as [_ ->].
      exists (tasks ≫= fun t => map (pair t) (dirs_of d lang t)). split; [by apply places_of|].
      apply rmap_ok in Es. clear -Es. unfold group in Es. revert ss Es. induction tasks as [|t ts IH]; intros ss; [inversion 1; constructor|]. rewrite !bind_cons.
      intros (s1 & s2 & F1 & F2 & ->)%Forall2_app_inv_l. apply Forall2_app; [|by apply IH]. apply Forall2_mapl in F1. apply Forall2_mapl. eapply Forall2_impl; [exact F1|]. intros x s. cbn [fst snd]. apply statement_ok. }
    assert (map (fun b => bc_language (bk_config b)) bs = map fst groups) as E. { clear -HF. induction HF as [|x b l k (E & _) _ IH]; [done|]. cbn [map]. by rewrite E, IH. }
    rewrite E. split_and!; [apply groups_keys| |].
    - intros lang. rewrite <- group_written, elem_of_list_fmap. split.
      + intros ([l xs] & -> & Hx). apply groups_spec in Hx as [H1 ->]. done.
      + intros Hx. exists (lang, group lang). split; [done|]. by apply groups_spec.
    - intros b Hb. eapply Forall2_in_r in HF as (x & _ & _ & _ & Hc); [exact Hc|done].
  Qed.
  (** It fails exactly when the tasks are not in one directory, or a task has a statement and contest.yaml is not valid, or a statement cannot be read *)
  Theorem C81_contest_fails : (exists e, make_contest_booklets ord d tasks sol = inr e) <->
    (tasks <> [] /\ ~ exists contest, Forall (fun t => parent (td_path t) = Some contest) tasks) \/
    exists contest t dir lang, Forall (fun t => parent (td_path t) = Some contest) tasks /\ t ∈ tasks /\ written d (td_path t) dir lang /\
      (bd_contest d (child contest "contest.yaml") = Some None \/ bd_text d (tex_path (td_path t) dir lang) = None).
  Proof using Hord Hg Ht.
    destruct (decide (tasks = [])) as [E0|Hne].
    { rewrite E0. cbn. split; [by intros [e ?]|]. intros [[? _]|(? & ? & ? & ? & _ & ?%elem_of_nil & _)]; done. }
    assert ((exists dir, Forall (fun t => parent (td_path t) = Some dir) tasks) \/ (exists e, make_contest_booklets ord d tasks sol = inr e) /\ ~ exists dir, Forall (fun t => parent (td_path t) = Some dir) tasks) as [[dir Hp]|[H1 H2]].
    { unfold make_contest_booklets. destruct tasks as [|t0 ts] eqn:E; [done|]. rewrite <- E in *. destruct (parent (td_path t0)) as [q|] eqn:Eq.
      - destruct (same_contest q tasks) as [[]|e] eqn:Es; [left; exists q; by apply same_contest_ok|]. right. split; [by eexists|]. intros [q' Hq].
        assert (q' = q) as ->. { rewrite E in Hq. apply Forall_cons in Hq as [Hq _]. congruence. } apply same_contest_ok in Hq. congruence.
      - right. split; [by eexists|]. intros [q' Hq]. rewrite E in Hq. apply Forall_cons in Hq as [Hq _]. congruence. }
    2: { split; [intros _; by left|done]. }
    rewrite (contest_unfold dir Hne Hp), rmap_err. split.
    - intros ([lang xs] & e & Hx & He). right. cbn [fst snd] in He. apply groups_spec in Hx as [Hx ->]. unfold rbind in He. destruct (from_contest d lang dir sol) as [c|e'] eqn:Ec.
      + destruct (rmap _ (group lang)) as [|e'] eqn:Er; [done|]. destruct (proj1 (rmap_err (fun y : task_data * fpath => new_statement d y.2 (config_of y.1)) (group lang))) as ((t & p) & e2 & Hin & He2); [by exists e'|].
        unfold group in Hin. apply elem_of_list_bind in Hin as (t' & (dr & [= -> ->] & Hd)%elem_of_list_fmap & Hin). exists dir, t', dr, lang. split_and!; [done|done| |].
        * unfold dirs_of in Hd. apply elem_of_list_filter in Hd as [Hl Hd]. rewrite Forall_forall in Ht. destruct (Ht t' Hin) as [_ Hh]. by apply (languages_spec d (td_path t') Hg Hh dr Hd).
        * right. unfold new_statement in He2. cbn [fst snd] in He2. by destruct (bd_text d _).
      + apply group_written in Hx as (t & dr & Hin & Hw). exists dir, t, dr, lang. split_and!; [done|done|done|]. left. apply (settings_err d lang dir sol). by exists e'.
    - intros [[_ []]|(dir' & t & dr & lang & Hp' & Hin & Hw & H)]; [by exists dir|].
      assert (dir' = dir) as ->. { rewrite Forall_forall in Hp, Hp'. specialize (Hp t Hin). specialize (Hp' t Hin). congruence. }
      assert ((lang, group lang) ∈ groups) as Hx. { apply groups_spec. split; [|done]. apply group_written. by exists t, dr. }
      exists (lang, group lang). cbn [fst snd]. unfold rbind. destruct (from_contest d lang dir sol) as [c|e] eqn:Ec; [|by exists e].
      destruct H as [H|H]; [apply (settings_err d lang dir sol) in H as [e He]; congruence|].
      destruct (rmap _ (group lang)) as [ss|e] eqn:Er; [|by exists e]. exfalso. apply rmap_ok in Er.
      assert ((t, tex_path (td_path t) dr lang) ∈ group lang) as Hg2.
      { unfold group. apply elem_of_list_bind. exists t. split; [|done]. apply elem_of_list_fmap. exists dr. split; [done|]. assert (dr ∈ statement_dirs) as Hd by apply Hw. apply elem_of_list_filter. split; [|done].
        rewrite Forall_forall in Ht. destruct (Ht t Hin) as [_ Hh]. by apply (languages_spec d (td_path t) Hg Hh dr Hd). }
      eapply Forall2_in_l in Er as (s & _ & Hs); [|exact Hg2]. cbn in Hs. unfold new_statement in Hs. by rewrite H in Hs.
  Qed.
End contest.
(** If no task has the language in both directories, the statements of a booklet are those of the tasks written in it, each once and in the order of the tasks *)
Theorem C81_once d lang tasks l : places d lang tasks l -> (forall t, t ∈ tasks -> ~ (written d (td_path t) "statement" lang /\ written d (td_path t) "testo" lang)) ->
  l.*1 `sublist_of` tasks /\ forall t, t ∈ tasks -> (t ∈ l.*1 <-> exists dir, written d (td_path t) dir lang).
Proof.
  intros H Hone. assert (l.*1 `sublist_of` tasks /\ forall t, t ∈ l.*1 <-> t ∈ tasks /\ exists dir, written d (td_path t) dir lang) as [H1 H2]; [|split; [done|]; intros t Ht; rewrite H2; tauto].
  induction H as [|t ts dirs l Hd Hs _ IH]; [split; [apply sublist_nil_l|]; intros t; split; [by intros ?%elem_of_nil|by intros [?%elem_of_nil _]]|].
  destruct IH as [IH1 IH2]; [intros t' Ht'; apply Hone; by right|]. rewrite fmap_app.
  assert ((map (pair t) dirs).*1 = match dirs with [] => [] | _ => [t] end) as ->.
  { assert (~ ("statement" ∈ dirs /\ "testo" ∈ dirs)) as Hn by (rewrite !Hd; apply Hone; left). unfold statement_dirs in Hs.
    destruct dirs as [|a [|b [|c r]]]; [done|done| |apply sublist_length in Hs; simpl in Hs; lia]. exfalso. apply Hn.
    assert ([a; b] = ["statement"; "testo"]) as [= -> ->]; [|split; [left|right; left]].
    inversion Hs as [|? ? ? Hs1|? ? ? Hs1]; subst; [|apply sublist_length in Hs1; simpl in Hs1; lia].
    inversion Hs1 as [|? ? ? Hs2|? ? ? Hs2]; subst; [done|]. apply sublist_length in Hs2; simpl in Hs2; lia. }
  destruct dirs as [|a dirs]; cbn [app].
  - split; [by constructor|]. intros t'. rewrite IH2, elem_of_cons. split; [intros [? ?]; split; [by right|done]|]. intros [[->|?] (dir & Hw)]; [|split; [done|by exists dir]].
    apply Hd in Hw. by apply elem_of_nil in Hw.
  - split; [by constructor|]. intros t'. rewrite !elem_of_cons, IH2. split; [|naive_solver]. intros [->|[? ?]]; [|split; [by right|done]]. split; [by left|]. exists a. apply Hd. left.
Qed.

(** ** Examples *)
Definition book_of (files : list (list string * text)) (contest : option (option contest_yaml)) : book_disk :=
  let files := map (fun f => (FPath true f.1, f.2)) files in
  BookDisk (tree_of (map (fun f => p_comps f.1) files))
    (fun p => match find (fun f => bool_decide (f.1 = p)) files with Some f => Some f.2 | None => None end)
    (fun p => if bool_decide (p = FPath true ["ct"; "contest.yaml"]) then contest else None).
Definition a_task (n : string) : task_data := TaskData (FPath true ["ct"; n]) n ("Task " +:+ n) None None (Some "1") (Some "256") None None.
Definition ex_contest : contest_yaml := ContestYaml (Some "Finals") None (Some "today") None (Some "True") None ["b"; "a"].
Definition ex_book : book_disk := book_of
  [(["ct"; "a"; "statement"; "english.tex"], chars "one"); (["ct"; "a"; "statement"; "italian.tex"], chars "uno"); (["ct"; "b"; "testo"; "italian.tex"], chars "due");
   (["ct"; "b"; "statement"; "notes.txt"], [])] (Some (Some ex_contest)).
Lemma no_hidden_dec d task : forallb (fun dir => match ls (bd_tree d) (child task dir) with Some l => negb (bool_decide (".tex" ∈ l)) | None => true end) statement_dirs = true -> no_hidden d task.
Proof.
  intros H dir Hd (l & E & Hl). rewrite forallb_forall in H. specialize (H dir (proj1 (elem_of_list_In _ _) Hd)). rewrite E in H. apply negb_true_iff, bool_decide_eq_false in H. done.
Qed.
Example C81_ex_good : good_tree (bd_tree ex_book) /\ Forall (fun t => ordinary (td_path t) /\ no_hidden ex_book (td_path t)) [a_task "b"; a_task "a"].
Proof. split; [good_files|]. repeat constructor; try (apply no_hidden_dec; by vm_compute); apply (bool_decide_unpack _); vm_compute; exact Logic.I. Qed.
Example C81_ex_contest : match make_contest_booklets (@rev _) ex_book [a_task "b"; a_task "a"] true with
  | inl bs => map (fun b => (bc_language (bk_config b), bc_summary (bk_config b), map (fun s => (sm_name (sm_config s), string_of_list_ascii (sm_content s))) (bk_statements b), bk_dest b)) bs =
     [("english", true, [("a", "one")], FPath true ["ct"; "english.pdf"]); ("italian", true, [("b", "due"); ("a", "uno")], FPath true ["ct"; "italian.pdf"])]
  | inr _ => False end.
Proof. vm_compute. reflexivity. Qed.
Example C81_ex_task : match make_task_booklets ex_book (a_task "a") true with
  | inl bs => map (fun b => (bc_language (bk_config b), bk_dest b)) bs = [("english", FPath true ["ct"; "a"; "statement"; "english.pdf"]); ("italian", FPath true ["ct"; "a"; "statement"; "italian.pdf"])]
  | inr _ => False end.
Proof. vm_compute. reflexivity. Qed.

(** A task with the same language in statement/ and testo/ is in the booklet of the contest twice *)
Theorem C81_twice_refuted :
  let d := book_of [(["ct"; "a"; "statement"; "english.tex"], chars "new"); (["ct"; "a"; "testo"; "english.tex"], chars "old")] None in
  good_tree (bd_tree d) /\ Forall (fun t => ordinary (td_path t) /\ no_hidden d (td_path t)) [a_task "a"] /\
  exists b, make_contest_booklets id d [a_task "a"] false = inl [b] /\ map (fun s => sm_name (sm_config s)) (bk_statements b) = ["a"; "a"].
Proof.
  cbn zeta. split_and!; [good_files| |eexists; split; [vm_compute; reflexivity|vm_compute; reflexivity]].
  repeat constructor; try (apply no_hidden_dec; by vm_compute); apply (bool_decide_unpack _); vm_compute; exact Logic.I.
Qed.
(** The summary is shown only if contest.yaml has the word True, with that case *)
Theorem C81_summary_refuted :
  let d := book_of [(["ct"; "a"; "statement"; "english.tex"], [])] (Some (Some (ContestYaml None None None None (Some "true") None []))) in
  exists b, make_task_booklets d (a_task "a") false = inl [b] /\ bc_summary (bk_config b) = false.
Proof. cbn zeta. eexists. split; vm_compute; reflexivity. Qed.

Print Assumptions C81_task.
Print Assumptions C81_task_fails.
Print Assumptions C81_task_dests.
Print Assumptions C81_contest.
Print Assumptions C81_contest_fails.
Print Assumptions C81_once.
