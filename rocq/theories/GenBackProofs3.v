(** * GenBackProofs3: the written gen/GEN is read *)
From stdpp Require Import pretty.
From Verif Require Import GenBackSpec FormatProofs FormatProofs2 FormatProofs3 FormatProofs4 CasesProofs CasesProofs2 GenBackProofs GenBackProofs2.

Lemma lines_end ts : Forall no_newline ts -> Lines (flat_map (fun t => t ++ newline) ts) (ts ++ [[]]).
Proof.
  induction 1 as [|t ts Ht _ IH]; [constructor; constructor|]. cbn [flat_map]. rewrite <- app_assoc. by constructor.
Qed.

Section read.
  Context (clean : text -> option text) (get_validator : nat -> validator) (get_output : nat -> output_gen) (generator : text).
  Context (show_score : text -> text) (source_name : text -> text) (known : text -> bool).
  Context (Hscore : forall t, Decimal t -> Word (show_score t) /\ no_newline (show_score t)).
  Context (Hsource : forall p, Word p -> no_newline p -> known p = true -> Word (source_name p) /\ no_newline (source_name p)).
  Notation run := (gen_run clean get_validator get_output generator).
  Notation step := (gen_step clean get_validator get_output generator).
  Notation Fact := (EntryFact known get_output).
  Notation elines stc := (entry_lines show_score constraint_text source_name stc).
  Notation BackE := (Back clean get_validator generator show_score source_name).
  Notation ReadE := (EntryReadable clean show_score).
  Notation ReadAll := (Readable clean show_score).
  Definition read (ts : list text) (s : gen_state) : option gen_state := ls ← mapM parse_gen_line ts; run s ls.
  Lemma run_app s l1 l2 : run s (l1 ++ l2) = (s' ← run s l1; run s' l2).
  Proof. revert s. induction l1 as [|x l1 IH]; intros s; [done|]. cbn [gen_run app]. destruct (step s x); [|done]. apply IH. Qed.
  Lemma read_cons t ts s : read (t :: ts) s = (l ← parse_gen_line t; s' ← step s l; read ts s').
  Proof. unfold read. cbn [mapM]. destruct (parse_gen_line t) as [l|]; [|done]. cbn [mbind option_bind]. destruct (mapM parse_gen_line ts); cbn [mbind option_bind]; [done|]. by destruct (step s l). Qed.
  Lemma read_nil s : read [] s = Some s. Proof. done. Qed.
  Lemma read_app ts us s : read (ts ++ us) s = (s' ← read ts s; read us s').
  Proof.
    revert s. induction ts as [|t ts IH]; intros s; [done|]. cbn [app]. rewrite !read_cons. destruct (parse_gen_line t); [|done]. cbn [mbind option_bind]. destruct (step s g); [|done]. apply IH.
  Qed.
  Lemma read_comments ts s : Forall (fun t => exists u, t = chars "# " ++ u) ts -> read ts s = Some s.
  Proof. induction 1 as [|t ts [u ->] _ IH]; [done|]. rewrite read_cons, comment_line. cbn [mbind option_bind gen_step]. exact IH. Qed.
  Lemma read_empty ts s : read ([] :: ts) s = read ts s.
  Proof. rewrite read_cons. reflexivity. Qed.
  Lemma read_comment u ts s : read ((chars "# " ++ u) :: ts) s = read ts s.
  Proof. rewrite read_cons, comment_line. reflexivity. Qed.
  Definition sub_read (s : gen_state) (score : text) (name : option text) : gen_state :=
    GenState (gs_testcases s) (gs_subtasks s + 1) (gs_entries s ++ [ESubtask (SubtaskEntry (gs_subtasks s) name score false (get_validator (gs_subtasks s)) [])])
      (match name with Some n => <[n := gs_subtasks s]> (gs_names s) | None => gs_names s end) (gs_deps s) false.
  Lemma read_subtask stc st s : Fact (ESubtask st) ->
    read (elines stc (ESubtask st)) s =
      if forallb is_digit (show_score (se_score st)) then
        match se_name st with
        | None => Some (sub_read s (show_score (se_score st)) None)
        | Some n => n' ← clean n; match gs_names s !! n' with Some _ => None | None => Some (sub_read s (show_score (se_score st)) (Some n')) end
        end
      else None.
  Proof using Hscore.
    intros [Hd Hn]. destruct (Hscore _ Hd) as [Hw _]. cbn [entry_lines app]. rewrite read_empty. change (chars "# Subtask " ++ chars (pretty (se_id st))) with (chars "# " ++ chars "Subtask " ++ chars (pretty (se_id st))).
    rewrite read_comment, read_cons, score_line by done. destruct (forallb is_digit _) eqn:E; [|done]. cbn [mbind option_bind gen_step]. rewrite read_app.
    set (s1 := GenState _ _ _ _ _ _). assert (forall s', read (match stc !! se_id st with Some l => map (fun c => chars "# " ++ constraint_text c) l | None => [] end) s' = Some s') as Hc.
    { intros s'. destruct (stc !! se_id st) as [l|]; [|done]. apply read_comments. apply Forall_fmap. apply Forall_forall. intros c _. by eexists. }
    destruct (se_name st) as [n|] eqn:En; [|by rewrite read_nil; cbn [mbind option_bind]; rewrite Hc].
    rewrite read_cons, name_line by (by apply Hn). cbn [mbind option_bind gen_step]. subst s1. cbn [gs_entries gs_names]. rewrite last_snoc. cbn [se_name]. destruct (clean n) as [n'|]; [|done]. cbn [mbind option_bind].
    destruct (gs_names s !! n'); [done|]. cbn [mbind option_bind]. rewrite read_nil. cbn [mbind option_bind]. rewrite Hc. unfold sub_read. cbn [gs_testcases gs_subtasks gs_deps gs_default se_id]. do 2 f_equal.
    unfold map_last. rewrite last_snoc, removelast_last. reflexivity.
  Qed.
  Lemma read_copy stc t p s s' : Fact (ETestcase t) -> te_input t = StaticIn p -> gs_default s = false ->
    read (elines stc (ETestcase t)) s = Some s' <-> exists w b, Word w /\ Blanks b /\ p = w ++ b /\ s' = add_testcase get_output (StaticIn w) s.
  Proof.
    intros [_ Hf] Hi Hd. rewrite Hi in Hf. destruct Hf as [Hp _]. cbn [entry_lines]. rewrite Hi. change (chars "# Testcase " ++ chars (pretty (te_id t))) with (chars "# " ++ chars "Testcase " ++ chars (pretty (te_id t))). rewrite read_comment, read_cons.
    assert (forall w, step s (LCopy w) = Some (add_testcase get_output (StaticIn w) s)) as Hs. { intros w. cbn [gen_step]. unfold add_default. by rewrite Hd. }
    split.
    - destruct (parse_gen_line _) as [l|] eqn:Hl; [|done]. cbn [mbind option_bind]. apply copy_line in Hl as (w & b & Hw & Hb & -> & ->); [|done]. rewrite Hs. cbn [mbind option_bind]. rewrite read_nil. intros [= <-]. by exists w, b.
    - intros (w & b & Hw & Hb & -> & ->). assert (parse_gen_line (chars "#COPY: " ++ w ++ b) = Some (LCopy w)) as ->; [apply copy_line; [done|by exists w, b]|]. cbn [mbind option_bind]. rewrite Hs. reflexivity.
  Qed.
  Lemma read_command stc t src args s : Fact (ETestcase t) -> te_input t = CustomIn src args -> gs_default s = false ->
    exists ws, WordsUpTo (chars " " ++ join_words args) ws /\
    read (elines stc (ETestcase t)) s = match get_output (gs_testcases s) with StaticOut _ => None | _ => Some (add_testcase get_output (CustomIn generator (source_name src :: ws)) s) end.
  Proof using Hsource.
    intros [_ Hf] Hi Hd. rewrite Hi in Hf. destruct Hf as (H1 & H2 & H3 & _). destruct (Hsource _ H1 H2 H3) as [Hw _]. cbn [entry_lines]. rewrite Hi. change (chars "# Testcase " ++ chars (pretty (te_id t))) with (chars "# " ++ chars "Testcase " ++ chars (pretty (te_id t))).
    destruct (command_words (source_name src) (join_words args) Hw) as (ws & Hws & Hl). exists ws. split; [done|]. rewrite read_comment, read_cons, Hl. cbn [mbind option_bind gen_step]. unfold add_default. rewrite Hd. by destruct (get_output _).
  Qed.
  Record Inv (es : list entry) (s : gen_state) : Prop := {
    i_back : Forall2 BackE es (gs_entries s);
    i_st : gs_subtasks s = count is_st es;
    i_tc : gs_testcases s = count is_tc es;
    i_deps : gs_deps s = ∅;
    i_default : gs_default s = bool_decide (es = []);
    i_names : forall c, is_Some (gs_names s !! c) <-> exists st n, ESubtask st ∈ es /\ se_name st = Some n /\ clean n = Some c }.
  Lemma readable_snoc es e : ReadAll (es ++ [e]) <-> ReadAll es /\ ReadE e /\
    forall st n c, e = ESubtask st -> se_name st = Some n -> clean n = Some c -> ~ exists st' n', ESubtask st' ∈ es /\ se_name st' = Some n' /\ clean n' = Some c.
  Proof.
    unfold Readable. rewrite Forall_app. split.
    - intros [[H1 H2] H]. apply Forall_cons in H2 as [He _]. split_and!; [done| |done|].
      + intros i j s s' n n' c Hi Hj. apply H; by apply lookup_app_l_Some.
      + intros st n c -> Hn Hc (st' & n' & Hin & Hn' & Hc'). apply elem_of_list_lookup in Hin as [i Hi].
        assert (i = length es) as ->; [|by apply lookup_lt_Some in Hi; lia]. apply (H i (length es) st' st n' n c); [by apply lookup_app_l_Some| |done..]. by rewrite lookup_app_r, Nat.sub_diag by lia.
    - intros ((H1 & H) & He & Hnew). split; [by split; [|constructor]|].
      assert (forall i s, (es ++ [e]) !! i = Some (ESubtask s) -> (es !! i = Some (ESubtask s)) \/ i = length es /\ e = ESubtask s) as Hcase.
      { intros i s Hi. apply lookup_app_Some in Hi as [?|[Hle Hi]]; [by left|]. apply list_lookup_singleton_Some in Hi as [Hi ->]. right. split; [lia|done]. }
      intros i j s s' n n' c Hi Hj Hn Hn' Hc Hc'. apply Hcase in Hi as [Hi|[-> Hi]]; apply Hcase in Hj as [Hj|[-> Hj]].
      + by eapply H.
      + exfalso. eapply Hnew; [done..|]. exists s, n. split_and!; [by eapply elem_of_list_lookup_2|done|done].
      + exfalso. eapply (Hnew s n c); [done..|]. exists s', n'. split_and!; [by eapply elem_of_list_lookup_2|done|done].
      + done.
  Qed.
  Lemma numbered_snoc es e : Numbered (es ++ [e]) -> Numbered es /\ match e with ESubtask s => se_id s = count is_st es | ETestcase t => te_id t = count is_tc es /\ count is_st es <> 0 end.
  Proof. intros H. inversion H as [Heq|es' s' ? ? Heq|es' t' ? ? ? Heq]; [by destruct es|..]; by apply app_inj_tail in Heq as [-> <-]. Qed.
  Lemma read_entries stc es : Forall Fact es -> Numbered es ->
    (forall s, read (flat_map (elines stc) es) gen_init = Some s -> ReadAll es /\ Inv es s) /\ (ReadAll es -> is_Some (read (flat_map (elines stc) es) gen_init)).
  Proof using Hscore Hsource.
    induction es as [|e es IH] using rev_ind; intros Hf Hn.
    - cbn [flat_map]. rewrite read_nil. split; [|done]. intros s [= <-]. split.
      + split; [done|]. intros i j s s' n n' c Hi. done.
      + split; [constructor|done..|]. intros c. cbn. rewrite lookup_empty. split; [by intros [? ?]|]. by intros (? & ? & ?%elem_of_nil & _).
    - apply Forall_app in Hf as [Hf He]. apply Forall_cons in He as [He _]. apply numbered_snoc in Hn as [Hn Hid]. destruct (IH Hf Hn) as [IH1 IH2]. rewrite flat_map_app, read_app, readable_snoc. cbn [flat_map]. rewrite app_nil_r.
      assert (forall s, read (flat_map (elines stc) es) gen_init = Some s -> ReadAll es -> Inv es s ->
        (forall s', read (elines stc e) s = Some s' -> (ReadE e /\ forall st n c, e = ESubtask st -> se_name st = Some n -> clean n = Some c -> ~ exists st' n', ESubtask st' ∈ es /\ se_name st' = Some n' /\ clean n' = Some c) /\ Inv (es ++ [e]) s') /\
        ((ReadE e /\ forall st n c, e = ESubtask st -> se_name st = Some n -> clean n = Some c -> ~ exists st' n', ESubtask st' ∈ es /\ se_name st' = Some n' /\ clean n' = Some c) -> is_Some (read (elines stc e) s))) as Hstep.
      { intros s Hs HR HI. destruct HI. destruct e as [st|t].
        - rewrite read_subtask by done. assert (show_score (se_score st) <> []) as Hne. { destruct He as [Hd _]. destruct (Hscore _ Hd) as [[? _] _]. done. } split.
          + intros s' H. destruct (forallb is_digit (show_score (se_score st))) eqn:Hdig; [|done]. apply digits_forallb in Hdig; [|done].
            assert (forall nm, (match se_name st with Some n => exists n', clean n = Some n' /\ nm = Some n' | None => nm = None end) -> s' = sub_read s (show_score (se_score st)) nm -> Inv (es ++ [ESubtask st]) s') as HI'.
            { intros nm Hnm ->. split; cbn [sub_read gs_entries gs_subtasks gs_testcases gs_deps gs_default gs_names].
              - apply Forall2_app; [done|]. constructor; [|constructor]. cbn. rewrite i_st0, <- Hid. by split_and!.
              - rewrite count_snoc. cbn. lia.
              - rewrite count_snoc. cbn. lia.
              - done.
              - rewrite bool_decide_eq_false_2; [done|]. by destruct es.
              - intros c. transitivity (is_Some (gs_names s !! c) \/ exists n, se_name st = Some n /\ clean n = Some c).
                + destruct (se_name st) as [n|] eqn:Hsn.
                  * destruct Hnm as (n' & Hcn & ->). destruct (decide (n' = c)) as [->|Hne'].
                    -- rewrite lookup_insert. split; [intros _; right; by exists n|done].
                    -- rewrite lookup_insert_ne by done. split; [by left|]. intros [?|(n1 & [= <-] & Hc)]; [done|congruence].
                  * subst nm. split; [by left|]. by intros [?|(? & ? & ?)].
                + rewrite i_names0. split.
                  * intros [(st' & n & Hin & H1 & H2)|(n & H1 & H2)]; [exists st', n; split_and!; [apply elem_of_app; by left|done|done]|].
                    exists st, n. split_and!; [apply elem_of_app; right; by apply elem_of_list_singleton|done|done].
                  * intros (st' & n & Hin & H1 & H2). apply elem_of_app in Hin as [Hin|Hin]; [left; by exists st', n|]. apply elem_of_list_singleton in Hin as [= ->]. right. by exists n. }
            destruct (se_name st) as [n|] eqn:Hsn.
            * destruct (clean n) as [n'|] eqn:Hcn; [|done]. cbn [mbind option_bind] in H. destruct (gs_names s !! n') as [?|] eqn:Hlk; [done|]. injection H as <-. split; [|apply (HI' (Some n')); [by exists n'|done]].
              split; [split; [done|]; intros n0 Hn0; rewrite Hsn in Hn0; injection Hn0 as <-; by eexists|]. intros st' n0 c [= <-] Hn0 Hc Hex. rewrite Hsn in Hn0. injection Hn0 as <-. rewrite Hcn in Hc. injection Hc as <-. apply i_names0 in Hex. rewrite Hlk in Hex. by destruct Hex.
            * injection H as <-. split; [|by apply (HI' None)]. split; [split; [done|]; intros n0 Hn0; congruence|]. intros st' n0 c [= <-] Hn0. congruence.
          + intros [[Hdig Hcl] Hnew]. apply digits_forallb in Hdig; [|done]. rewrite Hdig. destruct (se_name st) as [n|] eqn:Hsn; [|by eexists]. destruct (Hcl n eq_refl) as [n' Hcn]. rewrite Hcn. cbn [mbind option_bind].
            destruct (gs_names s !! n') as [?|] eqn:Hlk; [|by eexists]. exfalso. eapply Hnew; [done|done|done|]. apply i_names0. by eexists.
        - destruct Hid as [Hid Hst]. assert (gs_default s = false) as Hd. { rewrite i_default0. apply bool_decide_eq_false_2. intros ->. done. }
          assert (forall i', te_output t = get_output (te_id t) -> BackInput generator source_name (te_input t) i' -> Inv (es ++ [ETestcase t]) (add_testcase get_output i' s)) as HI'.
          { intros i' Ho Hi'. split; cbn [add_testcase gs_entries gs_subtasks gs_testcases gs_deps gs_default gs_names].
            - apply Forall2_app; [done|]. constructor; [|constructor]. cbn [Back te_id te_output te_input]. rewrite Ho, i_tc0, Hid. done.
            - rewrite count_snoc. cbn. lia.
            - rewrite count_snoc. cbn. lia.
            - done.
            - rewrite Hd. rewrite bool_decide_eq_false_2; [done|]. by destruct es.
            - intros c. rewrite i_names0. split; intros (st' & n & Hin & H); exists st', n; (split; [|done]); [apply elem_of_app; by left|]. apply elem_of_app in Hin as [Hin|Hin]; [done|]. by apply elem_of_list_singleton in Hin. }
          assert (forall P : Prop, (P /\ forall st n c, ETestcase t = ESubtask st -> se_name st = Some n -> clean n = Some c -> ~ exists st' n', ESubtask st' ∈ es /\ se_name st' = Some n' /\ clean n' = Some c) <-> P) as Htriv.
          { intros P. split; [by intros [? _]|]. intros HP. by split. }
          rewrite !Htriv. pose proof He as [Ho _]. cbn [EntryReadable]. destruct (te_input t) as [p|src args] eqn:Hi.
          + split.
            * intros s' H. apply (read_copy _ _ p) in H as (w & b & Hw & Hb & -> & ->); [|done..]. rewrite Htriv. split; [by exists w, b|]. apply HI'; [done|]. by exists w, b.
            * intros Hr. destruct Hr as (w & b & Hw & Hb & ->). exists (add_testcase get_output (StaticIn w) s). apply (read_copy _ _ (w ++ b)); [done..|]. by exists w, b.
          + destruct (read_command stc t src args s) as (ws & Hws & Hr); [done..|]. rewrite Hr. rewrite i_tc0, <- Hid, <- Ho. split.
            * intros s' H. rewrite Htriv. destruct (te_output t) as [p|src'|] eqn:Eo; [done|injection H as <-..]; (split; [done|]); (apply HI'; [done|]); by exists ws.
            * intros H. destruct (te_output t) as [p|src'|]; [by destruct (H p)|by eexists..]. }
      split.
      + intros s' H. destruct (read (flat_map (elines stc) es) gen_init) as [s|] eqn:Hs; [|done]. cbn [mbind option_bind] in H. destruct (IH1 s eq_refl) as [HR HI]. destruct (Hstep s eq_refl HR HI) as [H1 _]. destruct (H1 _ H) as [H2 H3]. rewrite readable_snoc. done.
      + intros (HR & He' & Hnew). destruct (IH2 HR) as [s Hs]. rewrite Hs in Hstep |- *. cbn [mbind option_bind]. destruct (IH1 s Hs) as [_ HI]. by apply (Hstep s eq_refl HR HI).
  Qed.
End read.
