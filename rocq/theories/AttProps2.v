(** * AttProps2: C80, the graders, the templates and the attachments *)
From Verif Require Export AttModel AttSpec FindSpec LangSpec.
From Verif Require Import AttProofs AttProofs2 AttProofs3 AttProps FindProofs FindProofs2 FindProofs3 FindProps LangProofs LangProofs2 LangProofs3 BuildProofs SpanSpec SpanProps.
From Coq Require Import Ascii String NArith.
From stdpp Require Import base list sorting gmap.
Local Open Scope nat_scope.

(** ** The graders of att/ and sol/ *)
Lemma is_stub_spec graders : is_stub graders = true <-> uses_stub graders.
Proof.
  unfold is_stub, uses_stub. rewrite existsb_exists. split.
  - intros (p & Hp & H). destruct (file_name p) as [n|] eqn:En; [|done]. apply bool_decide_eq_true in H. exists p, n. split_and!; [by apply elem_of_list_In|done|by apply stem_eq].
  - intros (p & n & Hp & En & Hs). exists p. split; [by apply elem_of_list_In|]. rewrite En. apply bool_decide_eq_true. by apply stem_eq.
Qed.
(** If the task has graders: for each language of a source of the directory there must be the grader of its main extension, otherwise one error says so and names the last of
    those sources; nothing else is reported; without graders nothing is *)
Theorem C80_graders ord d task graders folder : good_tree (ad_tree d) -> ordinary task -> folder ∈ ["att"; "sol"] -> (forall l, ord l ≡ₚ l) ->
  exists ds, check_missing_graders ord d task graders folder = (ds, None) /\ (graders = [] -> ds = []) /\
  (graders <> [] -> NoDup ds /\
   forall x, x ∈ ds <-> exists l n g, last_source d task folder l n /\
     ((uses_stub graders /\ g = "stub." +:+ main_ext l) \/ (~ uses_stub graders /\ g = "grader." +:+ main_ext l)) /\
     stat (ad_tree d) (child (child task folder) g) = false /\ x = AMissingGrader (FPath false [folder; g]) (FPath false [folder; n])).
Proof.
  intros Hg Ho Hf Hord. unfold check_missing_graders. destruct graders as [|g0 gs]; [exists []; done|].
  eexists. split; [reflexivity|]. split; [done|]. intros _. remember (g0 :: gs) as graders eqn:Egs. clear Egs.
  assert (no_special folder /\ folder <> "." /\ folder <> "..") as (Hf0 & Hf1 & Hf2).
  { apply elem_of_cons in Hf as [->|Hf%elem_of_list_singleton]; [|subst folder]; (split_and!; [plain_literal|done|done]). }
  rewrite (files_dotted d task folder) by done.
  set (m := by_ext task (is_stub graders) (map (child (child task folder)) (dotted d task folder)) []).
  assert (NoDup (map fst m)) as Hm1 by apply (by_ext_spec d task (is_stub graders) folder ("", (task, task, task)) Hg Hf1 Hf2).
  set (f := fun x : string * (fpath * fpath * fpath) => _).
  assert (forall x y, f x = Some y -> exists e p g c, x = (e, (p, g, c)) /\ stat (ad_tree d) p = false /\ y = AMissingGrader g c) as Hfs.
  { intros (e & (p & g) & c) y Hy. unfold f in Hy. destruct (stat _ p) eqn:Es; [done|]. injection Hy as <-. by exists e, p, g, c. }
  assert (forall x, x ∈ omap f (ord m) <-> exists y, y ∈ m /\ f y = Some x) as Hx.
  { intros x. rewrite elem_of_list_omap. split; intros (y & Hy & E); exists y; (split; [by rewrite (Hord m) in *|done]). }
  split.
  - assert (NoDup (ord m)) as Hnd. { rewrite (Hord m). by apply NoDup_fmap_1 in Hm1. }
    assert (forall x, x ∈ ord m -> exists l n, x = (main_ext l, (child (child task folder) ((if is_stub graders then "stub." else "grader.") +:+ main_ext l),
      FPath false [folder; (if is_stub graders then "stub." else "grader.") +:+ main_ext l], FPath false [folder; n]))) as Hall.
    { intros x H. rewrite (Hord m) in H. apply (by_ext_spec d task (is_stub graders) folder x Hg Hf1 Hf2) in H as (l & n & _ & ->). by exists l, n. }
    revert Hnd Hall. generalize (ord m). intros L Hnd Hall. clear -Hnd Hall Hfs. induction L as [|x L IH]; [constructor|]. apply NoDup_cons in Hnd as [H1 H2].
    change (omap f (x :: L)) with (match f x with Some y => y :: omap f L | None => omap f L end). destruct (f x) as [y|] eqn:Ey; [|apply IH; [done|]; intros z Hz; apply Hall; by right].
    apply NoDup_cons. split; [|apply IH; [done|]; intros z Hz; apply Hall; by right].
    intros (z & Hz & Ez)%elem_of_list_omap. apply H1. destruct (Hall x) as (l & n & ->); [left|]. destruct (Hall z) as (l' & n' & ->); [by right|].
    apply Hfs in Ey as (e & p & g & c & [= <- <- <- <-] & _ & ->). apply Hfs in Ez as (e & p & g & c & [= <- <- <- <-] & _ & [= Eg En]).
    apply (f_equal chars) in Eg. rewrite !chars_app in Eg. apply app_inv_head in Eg. apply chars_inj in Eg. apply main_ext_inj in Eg. by subst.
  - intros x. rewrite Hx. split.
    + intros (y & Hy & E). apply (by_ext_spec d task (is_stub graders) folder y Hg Hf1 Hf2) in Hy as (l & n & Hl & ->).
      apply Hfs in E as (e & p & g & c & [= <- <- <- <-] & Hst & ->). exists l, n, ((if is_stub graders then "stub." else "grader.") +:+ main_ext l). split_and!; try done.
      destruct (is_stub graders) eqn:Es; [left|right]; (split; [|done]); [by apply is_stub_spec|]. intros H. apply is_stub_spec in H. congruence.
    + intros (l & n & g & Hl & Hst & Hex & ->).
      assert (g = (if is_stub graders then "stub." else "grader.") +:+ main_ext l) as ->.
      { destruct Hst as [[Hs ->]|[Hs ->]]; [by rewrite (proj2 (is_stub_spec graders) Hs)|]. destruct (is_stub graders) eqn:Es; [|done]. by apply is_stub_spec in Es. }
      eexists. split; [apply (by_ext_spec d task (is_stub graders) folder _ Hg Hf1 Hf2); exists l, n; split; [exact Hl|reflexivity]|]. unfold f. by rewrite Hex.
Qed.

(** ** The templates *)
Lemma att_name_path name ext : plain (name +:+ "." +:+ ext) -> fpath_of (chars "att/" ++ chars name ++ chars "." ++ chars ext) = FPath false ["att"; name +:+ "." +:+ ext].
Proof.
  intros Hp. assert (chars name ++ chars "." ++ chars ext = chars (name +:+ "." +:+ ext)) as -> by by rewrite !chars_app.
  revert Hp. generalize (name +:+ "." +:+ ext). intros n (H1 & H2 & H3 & H4). unfold fpath_of.
  change (chars "att/" ++ chars n) with ("a"%char :: "t"%char :: "t"%char :: "/"%char :: chars n).
  assert (split_on "/"%char ("a"%char :: "t"%char :: "t"%char :: "/"%char :: chars n) = [chars "att"; chars n]) as ->.
  { cbn [split_on]. rewrite (split_on_none "/"%char (chars n) H4). reflexivity. }
  change (chars "att") with ["a"%char; "t"%char; "t"%char]. cbn iota. rewrite decide_False by done. cbn [app].
  rewrite filter_cons_True by done. rewrite filter_cons_True, filter_nil; [cbn [map]; by rewrite string_chars|].
  unfold real_comp. rewrite !bool_decide_eq_false_2; [done|..].
  - intros E. apply H1. by apply chars_inj.
  - intros E. apply H3. by apply chars_inj.
Qed.
Lemma extension_proper g ext : proper_grader g ext -> extension g = Some (chars ext).
Proof. intros (n & Hn & _ & He). unfold extension. rewrite Hn. by apply stem_ext_Some. Qed.
(** A warning for each grader without the template in its language, [att/TASK.EXT]; nothing else *)
Theorem C80_templates d task name graders : plain name -> Forall (fun g => exists ext, proper_grader g ext) graders ->
  (forall g ext, g ∈ graders -> proper_grader g ext -> plain (name +:+ "." +:+ ext)) ->
  exists ds, att_templates d task name graders = (ds, None) /\
  forall x, x ∈ ds <-> exists g ext, g ∈ graders /\ proper_grader g ext /\ stat (ad_tree d) (att task (name +:+ "." +:+ ext)) = false /\
    x = AMissingTemplate (att_rel (name +:+ "." +:+ ext)) (path_of task g).
Proof.
  intros Hname Hgr Hpl. induction graders as [|g graders IH].
  - exists []. split; [done|]. intros x. split; [by intros ?%elem_of_nil|]. by intros (g & ext & ?%elem_of_nil & _).
  - apply Forall_cons in Hgr as [[ext Hext] Hgr]. destruct IH as (ds & E & H); [done|intros g' ext' Hg'; apply Hpl; by right|]. cbn [att_templates].
    rewrite (extension_proper g ext Hext), E.
    assert (forall ext', proper_grader g ext' -> ext' = ext) as Hu. { intros ext' H'. apply extension_proper in H'. rewrite (extension_proper g ext Hext) in H'. injection H' as H'. symmetry. by apply chars_inj. }
    rewrite att_name_path by (apply (Hpl g ext); [left|done]).
    assert (fjoin task (FPath false ["att"; name +:+ "." +:+ ext]) = att task (name +:+ "." +:+ ext)) as ->.
    { unfold fjoin, att, child. cbn [p_abs p_comps]. rewrite !filter_cons_True, filter_nil; [by rewrite <- app_assoc| |done].
      destruct (Hpl g ext) as (H1 & _); [left|done|done]. }
    eexists. split; [reflexivity|]. intros x. destruct (stat (ad_tree d) (att task (name +:+ "." +:+ ext))) eqn:Es.
    + rewrite H. split; [intros (g' & ext' & Hg' & ?); exists g', ext'; split; [by right|done]|].
      intros (g' & ext' & [->|Hg']%elem_of_cons & Hp' & Hs' & ->); [apply Hu in Hp' as ->; congruence|]. by exists g', ext'.
    + rewrite elem_of_cons, H. split.
      * intros [->|(g' & ext' & Hg' & ?)]; [exists g, ext; split; [left|done]|exists g', ext'; split; [by right|done]].
      * intros (g' & ext' & [->|Hg']%elem_of_cons & Hp' & Hs' & ->); [left; by apply Hu in Hp' as ->|]. right. by exists g', ext'.
Qed.
(** A warning for each [sol/template.*] that is not a link *)
Theorem C80_template_links d task name : good_tree (ad_tree d) -> ordinary task ->
  exists ds, sol_template_symlink d task name = (ds, None) /\
  forall p, (exists a, ATemplateNotLink p a ∈ ds) <-> exists n, entry (ad_tree d) (child task "sol") n /\ begins "template." n /\ ad_link d (child (child task "sol") n) = None /\ p = FPath false ["sol"; n].
Proof.
  intros Hg Ho. unfold sol_template_symlink, files_of.
  erewrite lf_cons; [|eapply (glob_star _ _ _ _ "template."); [done|done|plain_literal|done|done|reflexivity]|apply lf_nil]. rewrite app_nil_r. unfold star_files.
  set (names := matching _ _ _).
  assert (forall n, n ∈ names <-> entry (ad_tree d) (child task "sol") n /\ begins "template." n) as Hn. { intros n. unfold names. by rewrite matching_spec, stem_match. }
  assert (forall n, n ∈ names -> plain n) as Hp. { intros n H. by eapply matching_plain. }
  assert (exists ds, template_links d task name (map (child (child task "sol")) names) = (ds, None) /\
    forall p, (exists a, ATemplateNotLink p a ∈ ds) <-> exists n, n ∈ names /\ ad_link d (child (child task "sol") n) = None /\ p = FPath false ["sol"; n]) as (ds & E & H).
  { assert (forall n, n ∈ names -> begins "template." n) as Hb. { intros n H. by apply Hn in H as [_ ?]. } clear Hn. clearbody names. induction names as [|n names IH].
    - exists []. split; [done|]. intros p. split; [by intros (a & ?%elem_of_nil)|by intros (n & ?%elem_of_nil & _)].
    - destruct IH as (ds & E & H); [intros m Hm; apply Hp; by right|intros m Hm; apply Hb; by right|].
      change (map (child (child task "sol")) (n :: names)) with (child (child task "sol") n :: map (child (child task "sol")) names). cbn [template_links].
      assert (exists ext, extension (child (child task "sol") n) = Some ext) as [ext ->].
      { unfold extension. rewrite file_name_child by (apply Hp; left). destruct (snd (stem_ext n)) as [ext|] eqn:Ee; [by exists ext|]. exfalso.
        destruct (Hb n) as [y ->]; [left|]. revert Ee. unfold stem_ext. change (chars ("template." +:+ y)) with ("t"%char :: chars ("emplate." +:+ y)). cbn [last_dot].
        destruct (last_dot (chars ("emplate." +:+ y))) as [[a b]|] eqn:El; [done|]. exfalso. revert El.
        change (chars ("emplate." +:+ y)) with (chars "emplate" ++ "."%char :: chars y). generalize (chars "emplate") (chars y). clear. intros l r.
        induction l as [|c l IH]; cbn [app last_dot]; [destruct (last_dot r) as [[]|]; [done|]; by rewrite decide_True|]. destruct (last_dot (l ++ "."%char :: r)) as [[]|]; [done|]. by destruct IH. }
      rewrite E, path_of_child. eexists. split; [reflexivity|]. intros p. destruct (ad_link d (child (child task "sol") n)) as [t|] eqn:Et.
      + rewrite H. split; [intros (m & Hm & ?); exists m; split; [by right|done]|]. intros (m & [->|Hm]%elem_of_cons & Hl & ->); [congruence|]. by exists m.
      + split.
        * intros (a & [[= -> _]|Ha]%elem_of_cons); [exists n; split; [left|done]|]. destruct (proj1 (H p)) as (m & Hm & ?); [by exists a|]. exists m. split; [by right|done].
        * intros (m & [->|Hm]%elem_of_cons & Hl & ->); [eexists; by left|]. destruct (proj2 (H (FPath false ["sol"; m]))) as [a Ha]; [by exists m|]. exists a. by right. }
  exists ds. split; [done|]. intros p. rewrite H. split; intros (n & Hx); exists n; rewrite Hn in *; tauto.
Qed.

(** ** The attachments *)
Lemma files_att d task : good_tree (ad_tree d) -> ordinary task ->
  exists names, files_of d task ["att/*"] = map (att task) names /\ NoDup names /\ StronglySorted name_le names /\ forall n, n ∈ names <-> entry (ad_tree d) (child task "att") n.
Proof.
  intros Hg Ho. exists (matching (ad_tree d) (child task "att") [TStar]). unfold files_of.
  erewrite lf_cons; [|eapply (glob_dir _ _ "att" "*" [TStar]); [done|done|plain_literal|done|done|reflexivity|done]|apply lf_nil]. rewrite app_nil_r.
  split_and!; [done|by apply matching_NoDup|apply matching_sorted|]. intros n. rewrite matching_spec. split; [tauto|]. intros H. split; [done|]. apply star_last.
Qed.
(** The rules in an attachment: one error for each attachment that has one (and can be parsed), that shows the first *)
Theorem C80_no_check d task : good_tree (ad_tree d) -> ordinary task ->
  exists ds, att_with_no_check d task = (ds, None) /\
  forall x, x ∈ ds <-> exists n c cs, entry (ad_tree d) (child task "att") n /\ ad_checks d (att task n) = Some (c :: cs) /\ x = ACheckRule (att_rel n) c.
Proof.
  intros Hg Ho. destruct (files_att d task Hg Ho) as (names & E & _ & _ & Hn). unfold att_with_no_check. rewrite E. eexists. split; [reflexivity|].
  intros x. rewrite elem_of_list_omap. split.
  - intros (p & (n & -> & Hp)%elem_of_list_fmap & H). destruct (ad_checks d (att task n)) as [[|c cs]|] eqn:Ec; try done. injection H as <-. exists n, c, cs. rewrite path_of_att. split_and!; [by apply Hn|done|done].
  - intros (n & c & cs & He & Hc & ->). exists (att task n). split; [apply elem_of_list_fmap; exists n; split; [done|by apply Hn]|]. by rewrite Hc, path_of_att.
Qed.
Lemma reported_spec t : reported t = true <-> unfinished t.
Proof.
  unfold reported, unfinished. destruct (last t) as [c|] eqn:El.
  - apply last_Some in El as (a & ->). unfold add_chunk. cbn [last fst snd orb].
    assert (forall (b : Prop) (D : Decision b), ~ b -> @bool_decide b D = false) as Hfalse by (intros; by apply bool_decide_eq_false_2).
    rewrite (Hfalse ("000"%char ∈ ([] : text)) _ (not_elem_of_nil _)), orb_false_r. rewrite andb_true_iff, !negb_true_iff, !bool_decide_eq_false, elem_of_list_singleton. split.
    + intros [H1 H2]. exists a, c. naive_solver.
    + intros (a' & c' & E & H1 & H2). apply app_inj_tail in E as [-> ->]. naive_solver.
  - split; [done|]. intros (a & c & -> & _). by rewrite last_snoc in El.
Qed.
Lemma no_new_line_spec d task names acc : Forall (fun n => is_Some (ad_bytes d (att task n))) names ->
  exists l, no_new_line d task (map (att task) names) acc = inl (acc ++ l) /\
  forall x, x ∈ l <-> exists n t, n ∈ names /\ ad_bytes d (att task n) = Some t /\ unfinished t /\ x = show_path (att_rel n).
Proof.
  revert acc. induction names as [|n names IH]; intros acc Hr.
  - exists []. split; [by rewrite app_nil_r|]. intros x. split; [by intros ?%elem_of_nil|]. by intros (n & t & ?%elem_of_nil & _).
  - apply Forall_cons in Hr as [[t Ht] Hr]. cbn [map no_new_line]. rewrite Ht, path_of_att. destruct (reported t) eqn:Er.
    + destruct (IH (acc ++ [show_path (att_rel n)]) Hr) as (l & -> & H). exists (show_path (att_rel n) :: l). split; [by rewrite <- app_assoc|]. intros x. rewrite elem_of_cons, H. split.
      * intros [->|(m & u & Hm & ?)]; [exists n, t; split_and!; [left|done|by apply reported_spec|done]|exists m, u; split; [by right|done]].
      * intros (m & u & [->|Hm]%elem_of_cons & Hu & Hun & ->); [by left|right; by exists m, u].
    + destruct (IH acc Hr) as (l & -> & H). exists l. split; [done|]. intros x. rewrite H. split.
      * intros (m & u & Hm & ?). exists m, u. split; [by right|done].
      * intros (m & u & [->|Hm]%elem_of_cons & Hu & Hun & ->); [|by exists m, u]. apply reported_spec in Hun. rewrite Ht in Hu. injection Hu as ->. congruence.
Qed.
(** If all the attachments can be read, one warning lists those that do not end with a new line (or a NUL), once and sorted; there is none if there are none *)
Theorem C80_new_line d task : good_tree (ad_tree d) -> ordinary task -> (forall n, entry (ad_tree d) (child task "att") n -> is_Some (ad_bytes d (att task n))) ->
  let bad x := exists n t, entry (ad_tree d) (child task "att") n /\ ad_bytes d (att task n) = Some t /\ unfinished t /\ x = show_path (att_rel n) in
  ((forall x, ~ bad x) /\ att_end_with_new_line d task = ([], None)) \/
  ((exists x, bad x) /\ exists l, att_end_with_new_line d task = ([ANoNewLine l], None) /\ NoDup l /\ StronglySorted name_le l /\ forall x, x ∈ l <-> bad x).
Proof.
  intros Hg Ho Hr bad. destruct (files_att d task Hg Ho) as (names & E & _ & _ & Hn). unfold att_end_with_new_line. rewrite E.
  destruct (no_new_line_spec d task names []) as (l & -> & H). { apply Forall_forall. intros n He. apply Hr. by apply Hn. }
  assert (forall x, x ∈ l <-> bad x) as Hb. { intros x. rewrite H. unfold bad. split; intros (n & t & He & ?); exists n, t; (split; [by apply Hn|done]). }
  rewrite app_nil_l. destruct l as [|x0 l].
  - left. split; [|done]. intros x Hx. apply Hb in Hx. by apply elem_of_nil in Hx.
  - right. split; [exists x0; apply Hb; left|]. eexists. split; [reflexivity|]. split_and!.
    + rewrite merge_sort_Permutation. apply NoDup_remove_dups.
    + apply (StronglySorted_merge_sort name_le).
    + intros x. rewrite merge_sort_Permutation, elem_of_remove_dups. apply Hb.
Qed.
(** Otherwise the check fails, and nothing is reported about the other attachments *)
Theorem C80_new_line_fails d task n : good_tree (ad_tree d) -> ordinary task -> entry (ad_tree d) (child task "att") n -> ad_bytes d (att task n) = None ->
  exists m, entry (ad_tree d) (child task "att") m /\ ad_bytes d (att task m) = None /\ att_end_with_new_line d task = ([], Some ("Failed to open attachment " +:+ show_path (att_rel m))).
Proof.
  intros Hg Ho He Hb. destruct (files_att d task Hg Ho) as (names & E & _ & _ & Hn). unfold att_end_with_new_line. rewrite E. apply Hn in He.
  assert (forall acc, exists m, m ∈ names /\ ad_bytes d (att task m) = None /\ no_new_line d task (map (att task) names) acc = inr ("Failed to open attachment " +:+ show_path (att_rel m))) as H.
  { clear Hn E. induction names as [|a names IH]; intros acc; [by apply elem_of_nil in He|]. cbn [map no_new_line]. destruct (ad_bytes d (att task a)) as [t|] eqn:Ea.
    - apply elem_of_cons in He as [->|He]; [congruence|]. destruct (IH He (if reported t then acc ++ [show_path (path_of task (att task a))] else acc)) as (m & Hm & Hm2 & ->).
      exists m. split_and!; [by right|done|done].
    - exists a. split_and!; [left|done|by rewrite path_of_att]. }
  destruct (H []) as (m & Hm & Hm2 & ->). exists m. split_and!; [by apply Hn|done|done].
Qed.
(** If no attachment is a broken link, the directories of att/ (or links to directories) are reported, each once *)
Theorem C80_directories d task : good_tree (ad_tree d) -> is_Some (ls (ad_tree d) (child task "att")) ->
  (forall n, entry (ad_tree d) (child task "att") n -> is_Some (ad_canon d (att task n))) ->
  exists ds, att_no_directory d task = (ds, None) /\ NoDup ds /\
  forall x, x ∈ ds <-> exists n c, entry (ad_tree d) (child task "att") n /\ ad_canon d (att task n) = Some c /\ is_Some (ls (ad_tree d) c) /\ x = ADirectory (att_rel n).
Proof.
  intros Hg [names Hl] Hc. unfold att_no_directory. rewrite Hl.
  assert (forall n, n ∈ names <-> entry (ad_tree d) (child task "att") n) as Hn. { intros n. unfold entry. rewrite Hl. naive_solver. }
  destruct (gt_names _ Hg _ _ Hl) as [Hnd _].
  assert (exists ds, directories d task (map (att task) names) = (ds, None) /\ NoDup ds /\
    forall x, x ∈ ds <-> exists n c, n ∈ names /\ ad_canon d (att task n) = Some c /\ is_Some (ls (ad_tree d) c) /\ x = ADirectory (att_rel n)) as (ds & E & H1 & H2).
  { assert (forall n, n ∈ names -> is_Some (ad_canon d (att task n))) as Hc'. { intros n ?. by apply Hc, Hn. } clear Hl Hc Hn.
    induction names as [|n names IH]; [exists []; split_and!; [done|constructor|]; intros x; split; [by intros ?%elem_of_nil|by intros (n & c & ?%elem_of_nil & _)]|].
    apply NoDup_cons in Hnd as [Hd1 Hd2]. destruct IH as (ds & E & H1 & H2); [done|intros m Hm; apply Hc'; by right|].
    destruct (Hc' n) as [c Ec]; [left|]. cbn [map directories]. rewrite Ec, E, path_of_att. destruct (ls (ad_tree d) c) as [sub|] eqn:Es.
    - eexists. split; [reflexivity|]. split.
      + apply NoDup_cons. split; [|done]. intros (m & c' & Hm & _ & _ & [= ->])%H2. done.
      + intros x. rewrite elem_of_cons, H2. split.
        * intros [->|(m & c' & Hm & ?)]; [exists n, c; split_and!; [left|done|by rewrite Es|done]|exists m, c'; split; [by right|done]].
        * intros (m & c' & [->|Hm]%elem_of_cons & ? & ? & ->); [by left|right; by exists m, c'].
    - exists ds. split_and!; [done|done|]. intros x. rewrite H2. split.
      + intros (m & c' & Hm & ?). exists m, c'. split; [by right|done].
      + intros (m & c' & [->|Hm]%elem_of_cons & Hc & Hls & ->); [|by exists m, c']. rewrite Ec in Hc. injection Hc as <-. rewrite Es in Hls. by destruct Hls. }
  exists ds. split_and!; [done|done|]. intros x. rewrite H2. split; intros (n & c & Hx & ?); exists n, c; (split; [by apply Hn|done]).
Qed.

(** ** Links and includes in the whole task *)
(** The broken links of the task are reported, but those under fuzz/ *)
Theorem C80_broken d task rs : (forall r, r ∈ rs -> r <> []) ->
  exists ds, broken_symlinks d task (map (under task) rs) = (ds, None) /\
  forall x, x ∈ ds <-> exists r t, r ∈ rs /\ stat (ad_tree d) (under task r) = false /\ ad_link d (under task r) = Some t /\ head r <> Some "fuzz" /\ x = ABrokenLink (FPath false r) t.
Proof.
  intros Hne. unfold broken_symlinks. eexists. split; [reflexivity|]. intros x. rewrite elem_of_list_omap.
  assert (forall r, r ∈ rs -> hd "" r = "fuzz" <-> head r = Some "fuzz") as Hh. { intros r Hr. destruct r; [by apply Hne in Hr|]. cbn. split; [by intros ->|by intros [= ->]]. }
  split.
  - intros (p & (r & -> & Hr)%elem_of_list_fmap & H). unfold under in *. rewrite path_of_under in H. cbn [p_comps] in H. destruct (stat _ _) eqn:Es; [done|]. case_bool_decide as Hf; [done|].
    destruct (ad_link d _) as [t|] eqn:Et; [|done]. injection H as <-. exists r, t. split_and!; try done. by rewrite <- Hh.
  - intros (r & t & Hr & Hs & Ht & Hf & ->). exists (under task r). split; [apply elem_of_list_fmap; by exists r|]. rewrite Hs, Ht. unfold under. rewrite path_of_under. cbn [p_comps].
    by rewrite bool_decide_eq_false_2 by (by rewrite Hh).
Qed.
Lemma drop_while_spec f l : exists a, l = a ++ drop_while f l /\ Forall (fun c => f c = true) a.
Proof.
  induction l as [|c l (a & E & Ha)]; [by exists []|]. cbn [drop_while]. destruct (f c) eqn:Ef; [|by exists []]. exists (c :: a). split; [cbn; by rewrite <- E|by constructor].
Qed.
Lemma bits_at_spec l rest : bits_at l = Some rest <-> exists ws1 ws2 o c,
  l = (chars "#" ++ ws1 ++ chars "include" ++ ws2 ++ o :: chars "bits/stdc++.h" ++ [c]) ++ rest /\
  Forall (fun c => white c = true) ws1 /\ Forall (fun c => white c = true) ws2 /\ (o = "<"%char \/ o = "034"%char) /\ (c = ">"%char \/ c = "034"%char).
Proof.
  assert (forall c, opening c = true <-> c = "<"%char \/ c = "034"%char) as Hop. { intros c. unfold opening, dq. by rewrite orb_true_iff, !bool_decide_eq_true. }
  assert (forall c, closing c = true <-> c = ">"%char \/ c = "034"%char) as Hcl. { intros c. unfold closing, dq. by rewrite orb_true_iff, !bool_decide_eq_true. }
  unfold bits_at. split.
  - destruct (strip_start (chars "#") l) as [l1|] eqn:E1; [|done]. apply strip_start_Some in E1. destruct (drop_while_spec white l1) as (ws1 & Ew1 & H1).
    destruct (strip_start (chars "include") (drop_while white l1)) as [l2|] eqn:E2; [|done]. apply strip_start_Some in E2. destruct (drop_while_spec white l2) as (ws2 & Ew2 & H2).
    destruct (drop_while white l2) as [|o l3] eqn:E3; [done|]. destruct (opening o) eqn:Ho; [|done]. destruct (strip_start (chars "bits/stdc++.h") l3) as [[|c rest']|] eqn:E4; try done.
    destruct (closing c) eqn:Hc; [|done]. intros [= ->].
    apply strip_start_Some in E4. exists ws1, ws2, o, c. split_and!; [|done|done|by apply Hop|by apply Hcl]. rewrite E1, Ew1, E2. rewrite Ew2, E4.
    cbn [app]. rewrite <- !app_assoc. cbn [app]. by rewrite <- !app_assoc.
  - intros (ws1 & ws2 & o & c & -> & H1 & H2 & Ho & Hc). rewrite <- !app_assoc. rewrite strip_start_app, drop_while_app; [|done|done]. rewrite strip_start_app.
    cbn [app]. rewrite drop_while_app; [|done|by destruct Ho as [->| ->]]. rewrite (proj2 (Hop o) Ho), <- app_assoc, strip_start_app. cbn [app]. by rewrite (proj2 (Hcl c) Hc).
Qed.
Definition at_line (b : bool) (a : text) : Prop := (a = [] /\ b = true) \/ last a = Some "010"%char.
Lemma at_line_cons b c a : at_line (bool_decide (c = "010"%char)) a <-> at_line b (c :: a).
Proof.
  unfold at_line. split.
  - intros [[-> Hc]|Ha]; right; [apply bool_decide_eq_true in Hc; by subst|]. by destruct a.
  - intros [[[=] _]|Ha]. destruct a as [|x a]; [left; cbn in Ha; injection Ha as ->; split; [done|by apply bool_decide_eq_true]|right; done].
Qed.
Definition to_line_end (rest : text) : text := drop_while (fun c => negb (bool_decide (c = newline_byte))) rest.
Lemma find_bits_spec l : forall b pos,
  match find_bits b pos l with
  | None => forall a r, l = a ++ r -> at_line b a -> bits_at r = None
  | Some (st, len) => exists a r rest, l = a ++ r /\ at_line b a /\ bits_at r = Some rest /\ st = pos + length a /\ len = length r - length (to_line_end rest) /\
      forall a' r', l = a' ++ r' -> at_line b a' -> bits_at r' <> None -> length a <= length a'
  end.
Proof.
  assert (forall (b : bool) (pos : nat) (l rest : text), (if b then bits_at l else @None text) = Some rest -> exists a r rest', l = a ++ r /\ at_line b a /\ bits_at r = Some rest' /\ pos = pos + length a /\
    length l - length (to_line_end rest) = length r - length (to_line_end rest') /\ forall a' r', l = a' ++ r' -> at_line b a' -> bits_at r' <> None -> length a <= length a') as Hhere.
  { intros [] pos l0 rest H; [|done]. exists [], l0, rest. split_and!; [done|by left|done|cbn; lia|done|cbn; intros; lia]. }
  induction l as [|c l IH]; intros b pos; cbn [find_bits].
  - destruct (if b then bits_at [] else None) as [rest|] eqn:E; [by apply Hhere|]. intros a r Hl Ha. destruct a; [|done]. cbn in Hl. subst r. destruct Ha as [[_ ->]|[=]]. done.
  - destruct (if b then bits_at (c :: l) else None) as [rest|] eqn:E; [by apply Hhere|]. specialize (IH (bool_decide (c = newline_byte)) (S pos)).
    destruct (find_bits _ _ l) as [[st len]|].
    + destruct IH as (a & r & rest & -> & Ha & Hr & -> & -> & Hmin). exists (c :: a), r, rest. split_and!; [done|by apply at_line_cons|done|cbn; lia|done|].
      intros [|c' a'] r' Hl Ha' Hr'; [|cbn; injection Hl as <- Hl; apply at_line_cons in Ha'; specialize (Hmin _ _ Hl Ha' Hr'); lia].
      cbn in Hl. subst r'. destruct Ha' as [[_ ->]|[=]]. by rewrite E in Hr'.
    + intros [|c' a] r Hl Ha; [cbn in Hl; subst r; destruct Ha as [[_ ->]|[=]]; done|]. injection Hl as <- Hl. apply at_line_cons in Ha. by eapply IH.
Qed.
Lemma bits_include_at t a m : bits_include t a m <-> exists r rest, t = a ++ r /\ at_line true a /\ bits_at r = Some rest /\ r = m ++ rest.
Proof.
  unfold bits_include, at_line. split.
  - intros (ws1 & ws2 & o & c & rest & -> & Ha & -> & H1 & H2 & Ho & Hc). eexists _, rest. split; [reflexivity|]. split; [tauto|]. split; [|done].
    apply bits_at_spec. by exists ws1, ws2, o, c.
  - intros (r & rest & -> & Ha & Hr & ->). apply bits_at_spec in Hr as (ws1 & ws2 & o & c & Hm & H). apply app_inv_tail in Hm. exists ws1, ws2, o, c, rest. tauto.
Qed.
Lemma to_line_end_spec rest : exists l, rest = l ++ to_line_end rest /\ "010"%char ∉ l /\ (to_line_end rest = [] \/ exists u, to_line_end rest = "010"%char :: u).
Proof.
  unfold to_line_end, newline_byte. induction rest as [|c rest (l & E & Hl & Hu)]; [exists []; split_and!; [done|apply not_elem_of_nil|by left]|]. cbn [drop_while].
  destruct (bool_decide (c = "010"%char)) eqn:Ec; cbn [negb].
  - apply bool_decide_eq_true in Ec as ->. exists []. split_and!; [done|apply not_elem_of_nil|right; by eexists].
  - apply bool_decide_eq_false in Ec. exists (c :: l). split_and!; [cbn; by rewrite <- E|by apply not_elem_of_cons|done].
Qed.
(** the first match, and when it is on one line *)
Lemma find_bits_first t :
  match find_bits true 0 t with
  | None => forall a m, ~ bits_include t a m
  | Some (st, len) => exists a m, first_bits t a m /\ st = length a /\ (on_one_line t st len <-> "010"%char ∉ m)
  end.
Proof.
  pose proof (find_bits_spec t true 0) as H. destruct (find_bits true 0 t) as [[st len]|].
  - destruct H as (a & r & rest & -> & Ha & Hr & -> & -> & Hmin). pose proof Hr as Hr'. apply bits_at_spec in Hr' as (ws1 & ws2 & o & c & Em & Hws). cbn [plus].
    set (m := chars "#" ++ ws1 ++ chars "include" ++ ws2 ++ o :: chars "bits/stdc++.h" ++ [c]) in *. exists a, m. split; [|split; [done|]].
    + split; [apply bits_include_at; by exists r, rest|]. intros a' m' (r' & rest' & Et & Ha' & Hr' & ->)%bits_include_at. apply (Hmin a' (m' ++ rest')); [done|done|]. by rewrite Hr'.
    + subst r. destruct (to_line_end_spec rest) as (l & El & Hl & Hend). set (e := to_line_end rest) in *. rewrite El at 1 2. rewrite !app_length.
      replace (length m + (length l + length e) - length e) with (length m + length l) by lia.
      assert (forall i, length a <= i < length a + (length m + length l) -> (a ++ m ++ l ++ e) !! i = (m ++ l) !! (i - length a)) as Hin.
      { intros i Hi. rewrite lookup_app_r by lia. rewrite (app_assoc m), lookup_app_l; [done|]. rewrite app_length. lia. }
      split.
      * intros [_ H] (k & Hk)%elem_of_list_lookup. pose proof (lookup_lt_Some _ _ _ Hk) as Hlt. destruct (H (length a + k)) as (x & Hx & Hne); [lia|].
        rewrite Hin in Hx by lia. replace (length a + k - length a) with k in Hx by lia. rewrite lookup_app_l in Hx by done. congruence.
      * intros Hm. assert (forall i, length a <= i < length a + (length m + length l) -> exists x, (a ++ m ++ l ++ e) !! i = Some x /\ x <> "010"%char) as Hok.
        { intros i Hi. rewrite Hin by done. destruct (lookup_lt_is_Some_2 (m ++ l) (i - length a)) as [x Hx]; [rewrite app_length; lia|]. exists x. split; [done|].
          intros ->. apply elem_of_list_lookup_2, elem_of_app in Hx as [?|?]; done. }
        split; [|done]. apply Hok. unfold m. rewrite app_length. cbn [length chars list_ascii_of_string]. lia.
  - intros a m (r & rest & Et & Ha & Hr & ->)%bits_include_at. by rewrite (H _ _ Et Ha) in Hr.
Qed.
(** the prefix of a first match is determined, and so is the match *)
Lemma first_bits_unique t a m a' m' : first_bits t a m -> first_bits t a' m' -> a = a' /\ m = m'.
Proof.
  intros [H Hmin] [H' Hmin']. assert (length a = length a') as Hlen. { pose proof (Hmin _ _ H'). pose proof (Hmin' _ _ H). lia. }
  apply bits_include_at in H as (r & rest & Et & _ & Hr & ->). apply bits_include_at in H' as (r' & rest' & Et' & _ & Hr' & ->).
  rewrite Et in Et'. apply app_inj_1 in Et' as [-> E]; [|done]. split; [done|]. rewrite E in Hr. rewrite Hr in Hr'. injection Hr' as ->. by apply app_inv_tail in E.
Qed.
(** When the command is run in the directory of the task, if every first include of bits/stdc++.h of a source is on one line, the sources that have one are in one warning,
    that is there if there is one, with the number of that line; otherwise the check fails with an error, and with it the evaluation *)
Theorem C80_bits d task rs : (forall r, r ∈ rs -> "." ∉ r) ->
  let bad r a m := r ∈ rs /\ exists t, ad_bytes d (under task r) = Some t /\ first_bits t a m in
  ((forall r a m, ~ bad r a m) /\ no_bits d task task (map (under task) rs) = ([], None)) \/
  ((exists r a m, bad r a m) /\ (forall r a m, bad r a m -> "010"%char ∉ m) /\ exists l, no_bits d task task (map (under task) rs) = ([ABits l], None) /\
     forall p n, (p, n) ∈ l <-> exists r a m, bad r a m /\ p = FPath false r /\ n = S (newlines a)) \/
  ((exists r a m, bad r a m /\ "010"%char ∈ m) /\ exists e, no_bits d task task (map (under task) rs) = ([], Some e)).
Proof.
  intros Hdot bad. unfold no_bits.
  assert (match bits_spans d task (map (path_of task) (map (under task) rs)) with
    | inl l => (forall r a m, bad r a m -> "010"%char ∉ m) /\ forall p n, (p, n) ∈ l <-> exists r a m, bad r a m /\ p = FPath false r /\ n = S (newlines a)
    | inr e => exists r a m, bad r a m /\ "010"%char ∈ m end) as HL.
  { subst bad. induction rs as [|r rs IH]; cbn [map bits_spans].
    - split; [intros r a m [?%elem_of_nil _]; done|]. intros p n. split; [by intros ?%elem_of_nil|]. intros (r & a & m & [?%elem_of_nil _] & _). done.
    - assert (fjoin task (path_of task (under task r)) = under task r) as Hp.
      { unfold under. rewrite path_of_under. unfold fjoin. cbn [p_abs p_comps]. f_equal. f_equal. specialize (Hdot r ltac:(left)). clear -Hdot. induction r as [|c r IH]; [done|].
        apply not_elem_of_cons in Hdot as [H1 H2]. rewrite filter_cons_True by done. by rewrite IH. }
      assert (path_of task (under task r) = FPath false r) as Hpr by (unfold under; by rewrite path_of_under). rewrite Hp, Hpr.
      specialize (IH ltac:(intros; apply Hdot; by right)).
      assert (forall t, ad_bytes d (under task r) = Some t -> (forall a m, ~ first_bits t a m) -> forall a m r', (r' ∈ r :: rs /\ exists t, ad_bytes d (under task r') = Some t /\ first_bits t a m) ->
        (r' ∈ rs /\ exists t, ad_bytes d (under task r') = Some t /\ first_bits t a m)) as Hnone.
      { intros t Et Hno a m r' [[->|Hin]%elem_of_cons (t' & Et' & Hf)]; [|by eauto]. rewrite Et in Et'. injection Et' as <-. by apply Hno in Hf. }
      assert ((forall a m r', (r' ∈ r :: rs /\ exists t, ad_bytes d (under task r') = Some t /\ first_bits t a m) -> (r' ∈ rs /\ exists t, ad_bytes d (under task r') = Some t /\ first_bits t a m)) ->
        match bits_spans d task (map (path_of task) (map (under task) rs)) with
        | inl l => (forall r' a m, (r' ∈ r :: rs /\ exists t, ad_bytes d (under task r') = Some t /\ first_bits t a m) -> "010"%char ∉ m) /\
            forall p n, (p, n) ∈ l <-> exists r' a m, (r' ∈ r :: rs /\ exists t, ad_bytes d (under task r') = Some t /\ first_bits t a m) /\ p = FPath false r' /\ n = S (newlines a)
        | inr e => exists r' a m, (r' ∈ r :: rs /\ exists t, ad_bytes d (under task r') = Some t /\ first_bits t a m) /\ "010"%char ∈ m end) as Hskip.
      { intros Hsub. destruct (bits_spans d task _) as [l|e].
        - destruct IH as [IH1 IH2]. split; [intros r' a m H; by eapply IH1, Hsub|]. intros p n. rewrite IH2. split.
          + intros (r' & a & m & [Hin H] & Hr). exists r', a, m. split; [split; [by right|done]|done].
          + intros (r' & a & m & H & Hr). exists r', a, m. split; [by apply Hsub|done].
        - destruct IH as (r' & a & m & [Hin H] & Hm). exists r', a, m. split; [split; [by right|done]|done]. }
      destruct (ad_bytes d (under task r)) as [t|] eqn:Et.
      2:{ apply Hskip. intros a m r' [[->|Hin]%elem_of_cons (t' & Et' & Hf)]; [by rewrite Et in Et'|by eauto]. }
      pose proof (find_bits_first t) as Hfirst. destruct (find_bits true 0 t) as [[st len]|].
      2:{ apply Hskip. eapply Hnone; [done|]. intros a m [H _]. by eapply Hfirst. }
      destruct Hfirst as (a & m & Hf & -> & Hone). pose proof (C92_made [] t (length a) len) as Hmade. destruct (span_of [] t (length a) len) as [sp|err] eqn:Esp.
      2:{ exists r, a, m. split; [split; [left|by exists t]|]. destruct (decide ("010"%char ∈ m)) as [|Hno]; [done|]. exfalso. apply Hone, Hmade in Hno as [? ?]. done. }
      assert ("010"%char ∉ m) as Hm. { apply Hone, Hmade. by eexists. }
      assert (cs_number sp = S (newlines a)) as Hnum.
      { destruct (C92_where _ _ _ _ _ Esp) as (_ & _ & _ & before & Hl & -> & Ho & Hle). f_equal.
        destruct Hf as [Hi _]. apply bits_include_at in Hi as (r0 & rest & Ht & Ha & Hr0 & ->).
        assert (cs_line_offset sp = 0) as H0.
        { destruct (decide (cs_line_offset sp = 0)) as [|Hne]; [done|]. exfalso. destruct Hl as (Hnn & Hb & Hc).
          assert (exists x, a = before ++ x /\ x <> [] /\ x `prefix_of` cs_line sp) as (x & -> & Hx & k & Hk).
          { exists (take (cs_line_offset sp) (cs_line sp)). split_and!.
            - assert (a = take (length a) t) as -> by (rewrite Ht; by rewrite take_app). rewrite Ho. destruct Hc as [->|[after ->]]; rewrite take_app_ge by lia; rewrite add_sub_l; [done|].
              by rewrite take_app_le by lia.
            - intros E%(f_equal length). rewrite take_length in E. cbn in E. lia.
            - eexists. symmetry. apply take_drop. }
          destruct Ha as [[E _]|Ha]; [by destruct before, x|]. apply Hnn. rewrite Hk. apply elem_of_app. left.
          rewrite last_app in Ha. destruct (last x) as [y|] eqn:Ey; [|by apply last_None in Ey]. injection Ha as ->. apply last_Some in Ey as [x' ->]. apply elem_of_app. right. by left. }
        rewrite H0, Nat.add_0_r in Ho. destruct Hl as (_ & _ & [Hc|[after Hc]]); rewrite Hc in Ht; apply app_inj_1 in Ht as [-> _]; done. }
      destruct (bits_spans d task _) as [l|e].
      + destruct IH as [IH1 IH2]. split.
        * intros r' a' m' [[->|Hin]%elem_of_cons (t' & Et' & Hf')]; [|eapply IH1; by eauto]. rewrite Et in Et'. injection Et' as <-. by destruct (first_bits_unique _ _ _ _ _ Hf Hf') as [_ <-].
        * intros p n. rewrite elem_of_cons, IH2. split.
          -- intros [[= -> ->]|(r' & a' & m' & [Hin H] & Hr)]; [exists r, a, m; split; [split; [left|by exists t]|by rewrite Hnum]|]. exists r', a', m'. split; [split; [by right|done]|done].
          -- intros (r' & a' & m' & [[->|Hin]%elem_of_cons (t' & Et' & Hf')] & -> & ->).
             ++ left. rewrite Et in Et'. injection Et' as <-. destruct (first_bits_unique _ _ _ _ _ Hf Hf') as [<- _]. by rewrite Hnum.
             ++ right. exists r', a', m'. split; [by eauto|done].
      + destruct IH as (r' & a' & m' & [Hin H] & Hm'). exists r', a', m'. split; [split; [by right|done]|done]. }
  destruct (bits_spans d task _) as [[|p0 l]|e].
  - left. split; [|done]. intros r a m Hb. destruct HL as [_ HL]. destruct (not_elem_of_nil (FPath false r, S (newlines a))). apply HL. by exists r, a, m.
  - right. left. destruct HL as [H1 H2]. split; [destruct p0 as [p n]; destruct (proj1 (H2 p n)) as (r & a & m & H & _); [left|by exists r, a, m]|]. split; [done|]. eexists. split; [reflexivity|done].
  - right. right. split; [done|]. by eexists.
Qed.

(** ** Examples *)
(** a tree with some files, of which those of [broken] are links that lead nowhere *)
Definition tree_with (files broken : list (list string)) : tree :=
  let t := tree_of (map (fun f => ["home"; "task"] ++ f) (files ++ broken)) in
  Tree (ls t) (fun p => stat t p && negb (existsb (fun b => bool_decide (p = in_task b)) broken)) (readable t).
Lemma tree_with_good files broken : Forall (Forall plain) (map (fun f => ["home"; "task"] ++ f) (files ++ broken)) ->
  Forall (fun b => ls (tree_of (map (fun f => ["home"; "task"] ++ f) (files ++ broken))) (in_task b) = None /\
                   forall n, stat (tree_of (map (fun f => ["home"; "task"] ++ f) (files ++ broken))) (child (in_task b) n) = false) broken ->
  good_tree (tree_with files broken).
Proof.
  intros Hp Hb. apply tree_of_good in Hp as [G1 G2 G3 G4]. rewrite Forall_forall in Hb. unfold tree_with. split; cbn [ls stat].
  - done.
  - intros p n [H _]%andb_true_iff. by apply G2.
  - intros p n [H _]%andb_true_iff Hc. apply andb_true_iff. split; [by eapply G3|]. apply negb_true_iff. apply not_true_is_false. intros (b & Hin & Hbd)%existsb_exists.
    apply bool_decide_eq_true in Hbd as ->. destruct (Hb b) as [_ H']; [by apply elem_of_list_In|]. by rewrite H' in H.
  - intros p names H Hc. apply andb_true_iff. split; [by eapply G4|]. apply negb_true_iff. apply not_true_is_false. intros (b & Hin & Hbd)%existsb_exists.
    apply bool_decide_eq_true in Hbd as ->. destruct (Hb b) as [H' _]; [by apply elem_of_list_In|]. by rewrite H' in H.
Qed.
Ltac good_with := apply tree_with_good; [apply (bool_decide_unpack _); vm_compute; exact Logic.I|repeat constructor].
(** a disk: the contents of some files, some other files that cannot be read (the directories that they are in neither), the links that lead nowhere, the checks that some files ask for *)
Definition full_disk (contents : list (list string * text)) (others : list (list string)) (broken : list (list string * string)) (checks : list (list string * list string)) : att_disk :=
  let t := tree_with (map fst contents ++ others) (map fst broken) in
  AttDisk t
    (fun p => match find (fun b => bool_decide (p = in_task b.1)) broken with Some b => Some b.2 | None => None end)
    (fun p => if stat t p then Some p else None)
    (fun p => match find (fun c => bool_decide (p = in_task c.1)) contents with Some c => Some c.2 | None => None end)
    (fun p => match find (fun c => bool_decide (p = in_task c.1)) checks with Some c => Some c.2 | None => Some [] end).
Definition nl : string := String "010" EmptyString.
Definition ex80 : att_disk := full_disk
  [(["att"; "task.cpp"], chars ("// @check" +:+ nl)); (["att"; "task.py"], chars "pass"); (["att"; "notes.txt"], chars "hello"); (["att"; "logo.png"], ["p"%char; "000"%char]);
   (["sol"; "a.cpp"], chars ("int x;" +:+ nl +:+ "# include <bits/stdc++.h>" +:+ nl)); (["sol"; "b.cc"], chars ("// #include <bits/stdc++.h>" +:+ nl)); (["sol"; "grader.cpp"], []); (["sol"; "template.cpp"], [])]
  [["gen"; "GEN"]] [(["sol"; "old.cpp"], "../old/old.cpp"); (["fuzz"; "x.cpp"], "y.cpp"); (["sol"; "template.py"], "../att/task.py")] [(["att"; "task.cpp"], ["*"; "sol"])].
Example C80_ex_good : good_tree (ad_tree ex80) /\ ordinary t_task.
Proof. split; [good_with|]. apply (bool_decide_unpack _). vm_compute. exact Logic.I. Qed.
Definition ex80_graders : list fpath := [in_task ["sol"; "grader.cpp"]].
Example C80_ex_graders : check_missing_graders id ex80 t_task ex80_graders "att" = 
    ([AMissingGrader (att_rel "grader.cpp") (att_rel "task.cpp"); AMissingGrader (att_rel "grader.py") (att_rel "task.py")], None) /\
  check_missing_graders id ex80 t_task ex80_graders "sol" = ([AMissingGrader (FPath false ["sol"; "grader.py"]) (FPath false ["sol"; "template.py"])], None).
Proof. by vm_compute. Qed.
Example C80_ex_templates : att_templates ex80 t_task "task" [in_task ["sol"; "grader.cpp"]; in_task ["sol"; "grader.rs"]] = ([AMissingTemplate (att_rel "task.rs") (FPath false ["sol"; "grader.rs"])], None) /\
  sol_template_symlink ex80 t_task "task" = ([ATemplateNotLink (FPath false ["sol"; "template.cpp"]) (att_rel "task.cpp")], None).
Proof. by vm_compute. Qed.
Example C80_ex_proper : proper_grader (in_task ["sol"; "grader.cpp"]) "cpp" /\ plain ("task" +:+ "." +:+ "cpp").
Proof. split; [|apply (bool_decide_unpack _); vm_compute; exact Logic.I]. exists "grader.cpp". split; [done|]. split; [apply (bool_decide_unpack _); vm_compute; exact Logic.I|]. apply stem_ext_Some. by vm_compute. Qed.
Example C80_ex_att : att_with_no_check ex80 t_task = ([ACheckRule (att_rel "task.cpp") "*"], None) /\
  att_end_with_new_line ex80 t_task = ([ANoNewLine ["att/notes.txt"; "att/task.py"]], None) /\ att_no_directory ex80 t_task = ([], None).
Proof. by vm_compute. Qed.
Example C80_ex_task : broken_symlinks ex80 t_task (map (under t_task) [["sol"; "a.cpp"]; ["sol"; "old.cpp"]; ["fuzz"; "x.cpp"]]) = ([ABrokenLink (FPath false ["sol"; "old.cpp"]) "../old/old.cpp"], None) /\
  no_bits ex80 t_task t_task (map (under t_task) [["sol"; "a.cpp"]; ["sol"; "b.cc"]]) = ([ABits [(FPath false ["sol"; "a.cpp"], 2)]], None).
Proof. by vm_compute. Qed.

(** ** What the checks get wrong *)
(** The task has the C++ grader that is needed, as grader.cc (which the task uses), and a missing grader is reported *)
Theorem C80_grader_ext_refuted :
  let d := full_disk [(["sol"; "grader.cc"], []); (["sol"; "a.cc"], [])] [] [] [] in
  good_tree (ad_tree d) /\ ordinary t_task /\ detect_language (in_task ["sol"; "grader.cc"]) = detect_language (in_task ["sol"; "a.cc"]) /\
  check_missing_graders id d t_task [in_task ["sol"; "grader.cc"]] "sol" = ([AMissingGrader (FPath false ["sol"; "grader.cpp"]) (FPath false ["sol"; "a.cc"])], None).
Proof. cbn zeta. split_and!; [good_with|apply (bool_decide_unpack _); vm_compute; exact Logic.I|by vm_compute|by vm_compute]. Qed.
(** A binary file (with NUL characters inside) is reported, as only its last character is read *)
Theorem C80_binary_refuted :
  let d := full_disk [(["att"; "logo.png"], ["P"%char; "000"%char; "N"%char; "G"%char])] [] [] [] in
  good_tree (ad_tree d) /\ ordinary t_task /\ att_end_with_new_line d t_task = ([ANoNewLine ["att/logo.png"]], None).
Proof. cbn zeta. split_and!; [good_with|apply (bool_decide_unpack _); vm_compute; exact Logic.I|by vm_compute]. Qed.
(** If the whole file were given to the checker, as for the outputs, it would not be reported *)
Theorem C80_binary_chunks_refuted : exists t, reported t = true /\ snd (add_chunk (fst (add_chunk (true, false) t)) []) = false.
Proof. exists ["P"%char; "000"%char; "N"%char; "G"%char]. by vm_compute. Qed.
(** A directory among the attachments makes the check of the new lines fail, and what it found is lost; a broken link does the same to the check of the directories *)
Theorem C80_hidden_refuted :
  let d := full_disk [(["att"; "a.txt"], chars "hello")] [["att"; "lib"; "x"]] [] [] in
  let d' := full_disk [] [["att"; "lib"; "x"]] [(["att"; "b.txt"], "nowhere")] [] in
  good_tree (ad_tree d) /\ good_tree (ad_tree d') /\ ordinary t_task /\
  att_end_with_new_line d t_task = ([], Some "Failed to open attachment att/lib") /\ unfinished (chars "hello") /\
  att_no_directory d t_task = ([ADirectory (att_rel "lib")], None) /\
  att_no_directory d' t_task = ([ADirectory (att_rel "lib")], Some "Failed to find canonical path of /home/task/att/b.txt").
Proof.
  cbn zeta. split_and!; [good_with|good_with|apply (bool_decide_unpack _); vm_compute; exact Logic.I|by vm_compute| |by vm_compute|by vm_compute].
  exists (chars "hell"), "o"%char. by split_and!.
Qed.
(** Run from elsewhere, the sources are not found and nothing is reported *)
Theorem C80_cwd_refuted :
  exists t a m, ad_bytes ex80 (in_task ["sol"; "a.cpp"]) = Some t /\ first_bits t a m /\
  no_bits ex80 (FPath true ["home"]) t_task [in_task ["sol"; "a.cpp"]] = ([], None).
Proof.
  eexists. pose proof (find_bits_first (chars ("int x;" +:+ nl +:+ "# include <bits/stdc++.h>" +:+ nl))) as H.
  assert (find_bits true 0 (chars ("int x;" +:+ nl +:+ "# include <bits/stdc++.h>" +:+ nl)) = Some (7, 25)) as E by by vm_compute. rewrite E in H.
  destruct H as (a & m & H & _). exists a, m. split; [vm_compute; reflexivity|]. split; [exact H|by vm_compute].
Qed.
(** A source of which an include is on two lines is not reported: the check fails *)
Definition two_line_include : text := chars ("#include" +:+ nl +:+ "<bits/stdc++.h>" +:+ nl).
Theorem C80_bits_refuted :
  let d := full_disk [(["sol"; "a.cpp"], two_line_include); (["sol"; "b.cpp"], chars ("#include <bits/stdc++.h>" +:+ nl))] [] [] [] in
  no_bits d t_task t_task (map (under t_task) [["sol"; "a.cpp"]; ["sol"; "b.cpp"]]) = ([], Some "Multiline spans are not supported").
Proof. by vm_compute. Qed.

Print Assumptions C80_graders.
Print Assumptions C80_templates.
Print Assumptions C80_template_links.
Print Assumptions C80_no_check.
Print Assumptions C80_new_line.
Print Assumptions C80_new_line_fails.
Print Assumptions C80_directories.
Print Assumptions C80_broken.
Print Assumptions C80_bits.
Print Assumptions C80_bits_refuted.
