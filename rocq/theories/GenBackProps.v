(** * GenBackProps: C87 *)
From stdpp Require Import pretty.
From Verif Require Import GenBackSpec FormatProofs FormatProofs2 FormatProofs3 FormatProofs4 CasesProofs CasesProofs2 CasesProofs3 CasesProofs4 GenBackProofs GenBackProofs2 GenBackProofs3 CasesProps.

Lemma unique_index {A B} (f : A -> option B) l i j x y n : NoDup (omap f l) -> l !! i = Some x -> l !! j = Some y -> f x = Some n -> f y = Some n -> i = j.
Proof.
  revert i j. induction l as [|z l IH]; intros i j Hnd Hi Hj Hx Hy; [done|].
  assert (forall k w, l !! k = Some w -> f w = Some n -> n ∈ omap f l) as Hin. { intros k w Hk Hw. apply elem_of_list_omap. exists w. split; [by eapply elem_of_list_lookup_2|done]. }
  change (omap f (z :: l)) with (match f z with Some b => b :: omap f l | None => omap f l end) in Hnd. destruct i as [|i], j as [|j]; cbn in Hi, Hj; [done|..].
  - injection Hi as ->. rewrite Hx in Hnd. apply NoDup_cons in Hnd as [Hnd _]. by destruct Hnd; eapply Hin.
  - injection Hj as ->. rewrite Hy in Hnd. apply NoDup_cons in Hnd as [Hnd _]. by destruct Hnd; eapply Hin.
  - f_equal. apply IH; try done. destruct (f z); [by apply NoDup_cons in Hnd as [_ ?]|done].
Qed.

Section props.
  (** As in FormatModel and GenBackModel.  [split] is [shell_words::split]: it makes no ends of line; [show_score] is [Display] of a number: no blanks and no number sign
      in it; [source_name] is the name of a file whose language is known: a word if its path is a word. *)
  Context (split : text -> option (list text)) (exists_file known : text -> bool) (get_output : nat -> output_gen) (file_name : text).
  Context (show_score : text -> text) (source_name : text -> text).
  Context (clean : text -> option text) (get_validator : nat -> validator) (generator : text).
  Context (split_newline : forall line args, no_newline line -> split line = Some args -> Forall no_newline args).
  Context (Hscore : forall t, Decimal t -> Word (show_score t) /\ no_newline (show_score t)).
  Context (Hsource : forall p, Word p -> no_newline p -> known p = true -> Word (source_name p) /\ no_newline (source_name p)).
  Notation cases := (parse_cases_gen split exists_file known get_output file_name).
  Notation written := (written_gen split exists_file known get_output file_name show_score source_name).
  Notation gens := (parse_gen_gen clean get_validator get_output generator).
  Notation BackE := (Back clean get_validator generator show_score source_name).
  Notation ReadAll := (Readable clean show_score).

  Lemma entry_newline stc e : EntryFact known get_output e -> Forall (Forall ConstraintFact) stc -> Forall no_newline (entry_lines show_score constraint_text source_name stc e).
  Proof using Hscore Hsource.
    intros He Hc. destruct e as [s|t]; cbn [entry_lines].
    - destruct He as [Hd Hn]. destruct (Hscore _ Hd) as [_ Hs]. rewrite !Forall_app. split_and!.
      + constructor; [constructor|]. constructor; [apply no_newline_app; split; [closed|apply pretty_nat_newline]|]. constructor; [apply no_newline_app; split; [closed|done]|constructor].
      + destruct (se_name s) as [n|]; [|constructor]. constructor; [|constructor]. apply no_newline_app. split; [closed|]. by apply Hn.
      + destruct (stc !! se_id s) as [l|] eqn:Hl; [|constructor]. pose proof (proj1 (Forall_lookup _ _) Hc _ _ Hl) as Hl'. apply Forall_fmap. eapply Forall_impl; [exact Hl'|]. intros c Hcc. cbn. apply (no_newline_app (chars "# ")). split; [closed|]. by apply constraint_newline.
    - destruct He as [_ He]. constructor; [apply no_newline_app; split; [closed|apply pretty_nat_newline]|]. constructor; [|constructor]. destruct (te_input t) as [p|src args].
      + apply no_newline_app. split; [closed|apply He].
      + destruct He as (H1 & H2 & H3 & H4). rewrite !no_newline_app. split_and!; [by apply Hsource|closed|by apply join_newline].
  Qed.
  Definition head_lines (cs : list constraint) : list text :=
    [chars "# Generated by task-maker. Do not edit!"; chars "# " ++ cookie; chars "# Removing or changing the line above will prevent task-maker from touching this file again."; []] ++
    match cs with [] => [] | _ => chars "# Constraints:" :: map (fun c => chars "# " ++ constraint_text c) cs end.
  Lemma content_lines cs stc es : gen_content show_score constraint_text source_name cs stc es =
    flat_map (fun t => t ++ newline) (head_lines cs ++ flat_map (entry_lines show_score constraint_text source_name stc) es).
  Proof.
    unfold gen_content. rewrite flat_map_app. rewrite !app_assoc. apply (f_equal (fun x => x ++ _)). unfold head_lines. rewrite flat_map_app.
    assert (generated_header ++ newline = flat_map (fun t => t ++ newline) [chars "# Generated by task-maker. Do not edit!"; chars "# " ++ cookie; chars "# Removing or changing the line above will prevent task-maker from touching this file again."; []]) as -> by by vm_compute.
    apply (f_equal (app _)). assert (forall l, flat_map (fun c => chars "# " ++ constraint_text c ++ newline) l = flat_map (fun t => t ++ newline) (map (fun c => chars "# " ++ constraint_text c) l)) as Hl.
    { induction l as [|x l IH]; [done|]. cbn [map flat_map]. rewrite IH. by rewrite <- !app_assoc. }
    destruct cs as [|c cs]; [done|]. rewrite Hl. exact (app_assoc (chars "# Constraints:") newline _).
  Qed.
  Lemma gens_written content g es : cases content = Some es -> written content = Some g ->
    Forall (EntryFact known get_output) es /\ Numbered es /\ NoDup (omap entry_name es) /\
    exists stc, gens g = (s ← read clean get_validator get_output generator (flat_map (entry_lines show_score constraint_text source_name stc) es) gen_init; mapM (resolve_entry (gs_names s) (gs_subtasks s) (gs_deps s)) (gs_entries s)).
  Proof using split_newline Hscore Hsource.
    intros Hc Hw. apply cases_inv in Hc as (ls & s & Hl & Hs & Hm). unfold written_gen in Hw. rewrite Hl in Hw. cbn [mbind option_bind] in Hw. rewrite Hs in Hw. cbn [mbind option_bind] in Hw. rewrite Hm in Hw. injection Hw as <-.
    assert (Good known get_output s) as HG.
    { eapply (good_run split exists_file known get_output file_name split_newline ls cases_init); [by eapply lines_fact| |apply good_init|done]. apply C45_file in Hl as (ts & _ & Hf). by eapply lines_shape. }
    destruct (resolved known get_output _ _ _ _ _ Hm (g_entries _ _ _ HG) (g_numbered _ _ _ HG)) as (H1 & H2 & _ & _ & H3). split_and!; [done|done|rewrite H3; apply (g_unique _ _ _ HG)|]. exists (cs_st_constraints s).
    set (body := flat_map _ es). unfold parse_gen_gen, parse_gen_lines. rewrite content_lines. fold body.
    assert (Forall no_newline (head_lines (cs_constraints s) ++ body)) as Hn.
    { apply Forall_app. split.
      - unfold head_lines. apply Forall_app. split; [repeat (constructor; [closed|]); constructor|]. pose proof (g_constraints _ _ _ HG) as Hcs. destruct (cs_constraints s) as [|c cs]; [constructor|]. constructor; [closed|].
        apply Forall_fmap. eapply Forall_impl; [exact Hcs|]. intros x Hx. cbn. apply (no_newline_app (chars "# ")). split; [closed|by apply constraint_newline].
      - subst body. apply Forall_flat_map. eapply Forall_impl; [exact H1|]. intros e He. apply entry_newline; [done|apply (g_st_constraints _ _ _ HG)]. }
    rewrite (split_lines_lines _ _ (lines_end _ Hn)).
    assert (forall ts (k : gen_state -> option (list entry)), (l ← mapM parse_gen_line ts; s ← gen_run clean get_validator get_output generator gen_init l; k s) = (s ← read clean get_validator get_output generator ts gen_init; k s)) as Hr.
    { intros ts k. unfold read. by destruct (mapM parse_gen_line ts). }
    rewrite Hr, !read_app.
    assert (read clean get_validator get_output generator (head_lines (cs_constraints s)) gen_init = Some gen_init) as ->.
    { unfold head_lines. rewrite read_app. assert (forall cs st, read clean get_validator get_output generator (match cs with [] => [] | _ => chars "# Constraints:" :: map (fun c => chars "# " ++ constraint_text c) cs end) st = Some st) as Hcs.
      { intros [|c cs] st; [done|]. apply read_comments. constructor; [by eexists (chars "Constraints:")|]. apply Forall_fmap, Forall_forall. intros x _. by eexists. }
      assert (forall a b c st, read clean get_validator get_output generator [chars "# " ++ a; chars "# " ++ b; chars "# " ++ c; []] st = Some st) as Hh. { intros a b c st. by rewrite !read_comment, read_empty. }
      match goal with |- (read _ _ _ _ ?l _ ≫= _) = _ => change l with [chars "# " ++ chars "Generated by task-maker. Do not edit!"; chars "# " ++ cookie; chars "# " ++ chars "Removing or changing the line above will prevent task-maker from touching this file again."; []] end.
      rewrite Hh. cbn [mbind option_bind]. apply Hcs. }
    cbn [mbind option_bind]. destruct (read _ _ _ _ body gen_init) as [s'|]; [|done]. cbn [mbind option_bind]. by rewrite read_empty.
  Qed.
  Lemma gens_result content g es es' : cases content = Some es -> written content = Some g ->
    gens g = Some es' <-> exists stc s, read clean get_validator get_output generator (flat_map (entry_lines show_score constraint_text source_name stc) es) gen_init = Some s /\
      gens g = Some (gs_entries s) /\ es' = gs_entries s /\ ReadAll es /\ Forall2 BackE es (gs_entries s).
  Proof using split_newline Hscore Hsource.
    intros Hc Hw. destruct (gens_written content g es Hc Hw) as (Hf & Hn & _ & stc & Hg). split; [|by intros (? & s & _ & ? & -> & _)].
    intros H. rewrite H in Hg. destruct (read _ _ _ _ _ gen_init) as [s|] eqn:Hr; [|done]. cbn [mbind option_bind] in Hg.
    destruct (proj1 (read_entries _ _ _ _ _ _ _ Hscore Hsource stc es Hf Hn) s Hr) as [HR HI].
    assert (forall l, mapM (resolve_entry (gs_names s) (gs_subtasks s) (gs_deps s)) l = Some l) as Hid. { rewrite (i_deps _ _ _ _ _ _ _ HI). intros l. apply mapM_Some. induction l as [|[e|e] l IH]; constructor; cbn [resolve_entry]; rewrite ?lookup_empty; done. }
    rewrite Hid in Hg. injection Hg as ->. exists stc, s. split_and!; [done|done|done|done|apply HI].
  Qed.

  (** There is a gen/GEN for every gen/cases.gen that is accepted *)
  Theorem C87_written content : is_Some (written content) <-> is_Some (cases content).
  Proof.
    unfold written_gen, parse_cases_gen. destruct (parse_cases_lines content) as [l|]; [|by split; intros [? ?]]. cbn [mbind option_bind]. destruct (cases_run _ _ _ _ _ _ l) as [s|]; [|by split; intros [? ?]]. cbn [mbind option_bind].
    destruct (mapM _ (cs_result s)); [|by split; intros [? ?]]. cbn [mbind option_bind]. split; by eexists.
  Qed.
  (** When it can be read *)
  Theorem C87_readable content g es : cases content = Some es -> written content = Some g -> is_Some (gens g) <-> ReadAll es.
  Proof using split_newline Hscore Hsource.
    intros Hc Hw. split.
    - intros [es' H]. by apply (gens_result content g es es' Hc Hw) in H as (stc & s & _ & _ & _ & HR & _).
    - intros HR. destruct (gens_written content g es Hc Hw) as (Hf & Hn & _ & stc & Hg).
      destruct (read_entries clean get_validator get_output generator _ _ _ Hscore Hsource stc es Hf Hn) as [H1 H2]. destruct (H2 HR) as [s Hr]. destruct (H1 s Hr) as [_ HI]. rewrite Hr in Hg. cbn [mbind option_bind] in Hg.
      assert (forall l, mapM (resolve_entry (gs_names s) (gs_subtasks s) (gs_deps s)) l = Some l) as Hid. { rewrite (i_deps _ _ _ _ _ _ _ HI). intros l. apply mapM_Some. induction l as [|[e|e] l IH]; constructor; cbn [resolve_entry]; rewrite ?lookup_empty; done. }
      rewrite Hid in Hg. by eexists.
  Qed.
  (** What is read: the subtasks and the testcases in the same order *)
  Theorem C87_back content g es es' : cases content = Some es -> written content = Some g -> gens g = Some es' -> Forall2 BackE es es'.
  Proof using split_newline Hscore Hsource. intros Hc Hw H. by apply (gens_result content g es es' Hc Hw) in H as (stc & s & _ & _ & -> & _ & HB). Qed.
  (** ... when nothing needs a quotation, exactly *)
  Theorem C87_plain content g es : cases content = Some es -> written content = Some g -> Forall (EntryPlain clean show_score) es ->
    gens g = Some (map (plain_back get_validator generator show_score source_name) es).
  Proof using split_newline Hscore Hsource.
    intros Hc Hw Hp. assert (ReadAll es) as HR.
    { destruct (gens_written content g es Hc Hw) as (_ & _ & Hu & _). split.
      - eapply Forall_impl; [exact Hp|]. intros [s|t]; cbn [EntryPlain EntryReadable].
        + intros [H1 H2]. split; [done|]. intros n Hn. exists n. by apply H2.
        + destruct (te_input t) as [p|src args]; [|by intros [_ ?]]. intros Hw'. exists p, []. rewrite app_nil_r. split_and!; [done|constructor|done].
      - pose proof (proj1 (Forall_lookup _ _) Hp) as Hp'. intros i j s s' n n' c Hi Hj Hn Hn' Hcn Hcn'. destruct (Hp' _ _ Hi) as [_ H1]. destruct (Hp' _ _ Hj) as [_ H2]. rewrite (H1 _ Hn) in Hcn. rewrite (H2 _ Hn') in Hcn'. injection Hcn as ->. injection Hcn' as ->.
        by apply (unique_index entry_name es i j (ESubtask s) (ESubtask s') c Hu). }
    apply (proj2 (C87_readable content g es Hc Hw)) in HR as [es' Hes]. rewrite Hes. f_equal. pose proof (C87_back content g es es' Hc Hw Hes) as HB. clear Hes Hc Hw.
    induction HB as [|e e' es es' Hb _ IH]; [done|]. apply Forall_cons in Hp as [He Hp]. cbn [map]. f_equal; [|by apply IH]. clear IH Hp.
    destruct e as [s|t], e' as [s'|t']; cbn [Back] in Hb; try done; cbn [plain_back EntryPlain] in He |- *.
    - destruct Hb as (H1 & H2 & H3 & H4 & H5 & H6). destruct He as [_ He]. destruct s' as [id nm sc d v dp]. cbn in *. subst. f_equal. f_equal. destruct (se_name s) as [n|]; [|done]. destruct H4 as (n' & Hn' & ->). rewrite (He n eq_refl) in Hn'. done.
    - destruct Hb as (H1 & H2 & H3). destruct t' as [id i o]. cbn in *. subst. do 2 f_equal. destruct (te_input t) as [p|src args].
      + destruct H3 as (w & b & Hw & Hb & -> & ->). f_equal. assert (b = []) as ->; [|by rewrite app_nil_r]. destruct b as [|c b]; [done|]. exfalso. destruct He as [_ He]. apply Forall_app in He as [_ He]. apply Forall_cons in He as [[He _] _]. apply Forall_cons in Hb as [Hb _]. done.
      + destruct H3 as (ws & Hws & ->). do 2 f_equal. eapply words_up_to_fun; [done|]. apply words_words. apply He.
  Qed.
End props.

(** ** Examples *)
Definition blank_split (t : text) : option (list text) := Some (more_words0 (length t) t).1.
Definition after_slash (t : text) : text := foldl (fun acc c => if decide (c = 47%N) then [] else acc ++ [c]) [] t.
Definition sample_cases : text :=
  chars ":GEN g gen/maker.py N" ++ newline ++ chars ":VAL v gen/valida.py" ++ newline ++ chars ":CONSTRAINT $N <= 100" ++ newline ++ chars ":SUBTASK 0 samples" ++ newline ++ chars ":COPY gen/sample.txt" ++ newline ++
  chars ":SUBTASK 100 all of them" ++ newline ++ chars ":STDEP samples" ++ newline ++ chars "10 20" ++ newline ++ chars "50 7".
Definition sample_output (k : nat) : output_gen := CustomOut (chars "sol/solution.py").
Definition sample_known (p : text) : bool := bool_decide (p ∈ [chars "gen/maker.py"; chars "gen/valida.py"]).
Definition sample_gen : option text := written_gen blank_split (fun _ => true) sample_known sample_output (chars "tm_validation_file") (fun t => t) after_slash sample_cases.
(** The hypotheses of the section above hold here *)
Theorem C87_hypotheses_met :
  (forall line args, no_newline line -> blank_split line = Some args -> Forall no_newline args) /\
  (forall t, Decimal t -> Word t /\ no_newline t) /\
  (forall p, Word p -> no_newline p -> sample_known p = true -> Word (after_slash p) /\ no_newline (after_slash p)).
Proof.
  split_and!.
  - intros line args Hn [= <-]. destruct (more_words0 (length line) line) as [ws r] eqn:Hm.
    assert (forall ws1 u, Words ws1 u -> no_newline u -> Forall no_newline ws1) as Hws. { induction 1 as [|b w ws2 u _ _ _ _ IH]; intros Hu; [constructor|]. rewrite !no_newline_app in Hu. destruct Hu as (_ & ? & ?). constructor; [done|by apply IH]. }
    apply more_words0_inv in Hm as [[-> _]|(w & ws' & b & u & -> & _ & _ & Hu & ->)]; [constructor|]. rewrite !no_newline_app in Hn. destruct Hn as (_ & ? & ? & _). constructor; [done|by eapply Hws].
  - assert (forall c, (48 <= c <= 57)%N -> (~ Blank c /\ c <> hash) /\ c <> 10%N /\ c <> 13%N) as Hc. { intros c Hc. unfold Blank, hash. lia. }
    assert (forall n, Digits n -> Word n /\ no_newline n) as Hd. { intros n [Hne Hn]. split; [split; [done|]|]; (eapply Forall_impl; [exact Hn|]); intros c Hcc; by apply Hc. }
    intros t [Ht|(n & m & Hn & Hm & ->)]; [by apply Hd|]. destruct (Hd n Hn) as [[H1 H2] H3]. destruct (Hd m Hm) as [[H4 H5] H6]. split.
    + split; [by destruct n|]. apply Forall_app. split; [done|]. constructor; [|done]. split; [by intros []|done].
    + apply no_newline_app. split; [done|]. by constructor.
  - intros p _ _ Hk. apply bool_decide_eq_true in Hk. assert (forall t : text, t <> [] -> forallb is_word t = true -> Word t) as Hw. { intros t Hne H. apply Word_bool. split; [done|]. by apply forallb_Forall. }
    apply elem_of_cons in Hk as [->|Hk]; [split; [by apply Hw|closed]|]. apply elem_of_list_singleton in Hk as ->. split; [by apply Hw|closed].
Qed.
Theorem C87_example :
  sample_gen = Some (chars "# Generated by task-maker. Do not edit!" ++ newline ++ chars "# tm-allow-delete" ++ newline ++
    chars "# Removing or changing the line above will prevent task-maker from touching this file again." ++ newline ++ newline ++ chars "# Constraints:" ++ newline ++ chars "# $N <= 100" ++ newline ++ newline ++
    chars "# Subtask 0" ++ newline ++ chars "#ST: 0" ++ newline ++ chars "#STNAME: samples" ++ newline ++ chars "# Testcase 0" ++ newline ++ chars "#COPY: gen/sample.txt" ++ newline ++ newline ++
    chars "# Subtask 1" ++ newline ++ chars "#ST: 100" ++ newline ++ chars "#STNAME: allofthem" ++ newline ++ chars "# Testcase 1" ++ newline ++ chars "maker.py 10 20" ++ newline ++ chars "# Testcase 2" ++ newline ++ chars "maker.py 50 7" ++ newline) /\
  exists es, parse_cases_gen blank_split (fun _ => true) sample_known sample_output (chars "tm_validation_file") sample_cases = Some es /\ Forall (EntryPlain Some (fun t => t)) es /\ length es = 5.
Proof.
  split; [by vm_compute|]. eexists. split; [vm_compute; reflexivity|]. split; [|done]. assert (forall t : text, t <> [] -> forallb is_word t = true -> Word t) as Hw. { intros t Hne H. apply Word_bool. split; [done|]. by apply forallb_Forall. }
  assert (forall t : text, t <> [] -> forallb is_digit t = true -> Digits t) as Hd. { intros t Hne H. by apply digits_forallb. }
  constructor; [split; [by apply Hd|done]|]. constructor; [by apply Hw|]. constructor; [split; [by apply Hd|done]|].
  constructor; [split; [|done]; constructor; [by apply Hw|constructor; [by apply Hw|constructor]]|].
  constructor; [split; [|done]; constructor; [by apply Hw|constructor; [by apply Hw|constructor]]|constructor].
Qed.
(** What is lost: the dependencies and the validators, and the generator is now an argument *)
Theorem C87_same_task_refuted :
  exists g es es', sample_gen = Some g /\ parse_cases_gen blank_split (fun _ => true) sample_known sample_output (chars "tm_validation_file") sample_cases = Some es /\
    parse_gen_gen Some (fun _ => AssumeValid) sample_output (chars "gen/generator.py") g = Some es' /\
    map (fun e => match e with ESubtask s => Some (se_deps s) | _ => None end) es = [Some []; None; Some [0]; None; None] /\
    map (fun e => match e with ESubtask s => Some (se_deps s) | _ => None end) es' = [Some []; None; Some []; None; None] /\
    map (fun e => match e with ETestcase t => Some (te_input t) | _ => None end) es = [None; Some (StaticIn (chars "gen/sample.txt")); None; Some (CustomIn (chars "gen/maker.py") [chars "10"; chars "20"]); Some (CustomIn (chars "gen/maker.py") [chars "50"; chars "7"])] /\
    map (fun e => match e with ETestcase t => Some (te_input t) | _ => None end) es' = [None; Some (StaticIn (chars "gen/sample.txt")); None; Some (CustomIn (chars "gen/generator.py") [chars "maker.py"; chars "10"; chars "20"]); Some (CustomIn (chars "gen/generator.py") [chars "maker.py"; chars "50"; chars "7"])].
Proof. do 3 eexists. split; [vm_compute; reflexivity|]. split; [vm_compute; reflexivity|]. split; [vm_compute; reflexivity|]. by vm_compute. Qed.
(** A score that is not whole, a path with a blank: the gen/GEN that is written cannot be read *)
Definition half_cases : text := chars ":SUBTASK 12.5" ++ newline ++ chars ":COPY a".
Definition blank_cases : text := chars ":SUBTASK 12" ++ newline ++ chars ":COPY a b".
Theorem C87_always_readable_refuted :
  (exists g, written_gen blank_split (fun _ => true) sample_known sample_output [] (fun t => t) after_slash half_cases = Some g /\ parse_gen_gen Some (fun _ => AssumeValid) sample_output [] g = None) /\
  (exists g, written_gen blank_split (fun _ => true) sample_known sample_output [] (fun t => t) after_slash blank_cases = Some g /\ parse_gen_gen Some (fun _ => AssumeValid) sample_output [] g = None).
Proof. split; eexists; (split; [vm_compute; reflexivity|by vm_compute]). Qed.
(** An argument with a blank: other arguments are read.  [quoted]: the whole line is an argument *)
Definition quoted_cases : text := chars ":GEN g gen/maker.py" ++ newline ++ chars ":SUBTASK 12" ++ newline ++ chars "10 20".
Theorem C87_arguments_refuted : let quoted t := match t with [] => Some [] | _ => Some [t] end in
  exists g es es', written_gen quoted (fun _ => true) sample_known sample_output [] (fun t => t) after_slash quoted_cases = Some g /\
    parse_cases_gen quoted (fun _ => true) sample_known sample_output [] quoted_cases = Some es /\ parse_gen_gen Some (fun _ => AssumeValid) sample_output (chars "g") g = Some es' /\
    last es = Some (ETestcase (TestcaseEntry 0 (CustomIn (chars "gen/maker.py") [chars "10 20"]) (sample_output 0))) /\
    last es' = Some (ETestcase (TestcaseEntry 0 (CustomIn (chars "g") [chars "maker.py"; chars "10"; chars "20"]) (sample_output 0))).
Proof. do 3 eexists. split; [vm_compute; reflexivity|]. split; [vm_compute; reflexivity|]. split; [vm_compute; reflexivity|]. by vm_compute. Qed.

Print Assumptions C87_written.
Print Assumptions C87_readable.
Print Assumptions C87_back.
Print Assumptions C87_plain.
Print Assumptions C87_hypotheses_met.
Print Assumptions C87_example.
Print Assumptions C87_same_task_refuted.
Print Assumptions C87_always_readable_refuted.
Print Assumptions C87_arguments_refuted.
