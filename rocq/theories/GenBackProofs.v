(** * GenBackProofs: what is known of the entries of a gen/cases.gen *)
From Verif Require Import GenBackSpec FormatProofs FormatProofs2 FormatProofs3 FormatProofs4 CasesProofs CasesProofs2 CasesProofs3 CasesProofs4.

Lemma no_newline_app a b : no_newline (a ++ b) <-> no_newline a /\ no_newline b.
Proof. apply Forall_app. Qed.
Lemma lines_no_newline t ls : Lines t ls -> Forall no_newline ls.
Proof. induction 1; eauto. Qed.
Definition LineFact (l : cases_line) : Prop :=
  match l with
  | CSubtask n d => Decimal n /\ forall d', d = Some d' -> Phrase d' /\ no_newline d'
  | CCopy p => Phrase p /\ no_newline p
  | CRun _ a | CTestcase a => no_newline a
  | CGen _ (Some (p, _)) => Word p /\ no_newline p
  | CConstraint items => forall v, IVariable v ∈ items -> no_newline v
  | _ => True
  end.
Lemma comparison_newline is u : Comparison is u -> no_newline u -> forall v, IVariable v ∈ is -> no_newline v.
Proof.
  assert (forall i t v, Operand i t -> no_newline t -> i = IVariable v -> no_newline v) as Hop.
  { intros i t v Ho Hn ->. inversion Ho; subst. by apply Forall_cons in Hn as [_ ?]. }
  induction 1 as [i t Ho|i t b o b' is u Ho _ _ _ Hc IH]; intros Hn v Hv.
  - apply elem_of_list_singleton in Hv. by eapply Hop.
  - apply no_newline_app in Hn as [Ht Hn]. apply no_newline_app in Hn as [_ Hn]. apply no_newline_app in Hn as [_ Hn]. apply no_newline_app in Hn as [_ Hn].
    apply elem_of_cons in Hv as [Hv|Hv]; [by eapply Hop|]. apply elem_of_cons in Hv as [?|Hv]; [done|]. by apply IH.
Qed.
Ltac nn H := repeat first [rewrite no_newline_app in H | rewrite <- app_assoc in H]; destruct_and? H.
Lemma command_fact t l : CasesCommand t l -> no_newline t -> LineFact l.
Proof.
  intros H Hn. inversion H; subst; cbn [LineFact]; try done; repeat rewrite no_newline_app in Hn; destruct_and? Hn; try done.
  - intros v Hv. by eapply comparison_newline.
  - split; [done|]. intros d' [= <-]. done.
Qed.
Lemma line_fact t l : CasesLine t l -> no_newline t -> LineFact l.
Proof.
  intros H Hn. inversion H as [|b u l' c Hb Hc Ht|u c Hu Hh Ht|]; subst; cbn [LineFact]; try done.
  - apply Forall_cons in Hn as [_ Hn]. rewrite !no_newline_app in Hn. destruct_and? Hn. by eapply command_fact.
  - by apply no_newline_app in Hn as [? ?].
Qed.
Lemma lines_fact content ls : parse_cases_lines content = Some ls -> Forall LineFact ls.
Proof.
  unfold parse_cases_lines. rewrite mapM_Some. intros H. pose proof (lines_no_newline _ _ (lines_split_lines content)) as Hn.
  induction H as [|t l ts ls Hl _ IH]; [done|]. apply Forall_cons in Hn as [Ht Hn]. constructor; [|by apply IH]. apply (line_fact t); [by apply cases_line_sound|done].
Qed.

(** The numbers of the entries *)
Definition is_st (e : entry) : bool := match e with ESubtask _ => true | _ => false end.
Definition is_tc (e : entry) : bool := match e with ETestcase _ => true | _ => false end.
Inductive Numbered : list entry -> Prop :=
  | Numbered_nil : Numbered []
  | Numbered_st es s : Numbered es -> se_id s = count is_st es -> Numbered (es ++ [ESubtask s])
  | Numbered_tc es t : Numbered es -> te_id t = count is_tc es -> count is_st es <> 0 -> Numbered (es ++ [ETestcase t]).
Definition entry_name (e : entry) : option text := match e with ESubtask s => se_name s | _ => None end.
Definition OperandFact (x : operand) : Prop := match x with Var v => no_newline v | Const _ => True end.
Definition ConstraintFact (c : constraint) : Prop := Forall OperandFact (co_operands c).

Section facts.
  Context (split : text -> option (list text)) (exists_file known : text -> bool) (get_output : nat -> output_gen) (file_name : text).
  Context (split_newline : forall line args, no_newline line -> split line = Some args -> Forall no_newline args).
  Definition EntryFact (e : entry) : Prop :=
    match e with
    | ESubtask s => Decimal (se_score s) /\ forall n, se_name s = Some n -> Word n /\ no_newline n
    | ETestcase t => te_output t = get_output (te_id t) /\
        match te_input t with
        | StaticIn p => Phrase p /\ no_newline p
        | CustomIn src args => Word src /\ no_newline src /\ known src = true /\ Forall no_newline args
        end
    end.
  Record Good (s : cases_state) : Prop := {
    g_entries : Forall EntryFact (cs_result s);
    g_numbered : Numbered (cs_result s);
    g_st : cs_subtask_id s = count is_st (cs_result s);
    g_tc : cs_testcase_id s = count is_tc (cs_result s);
    g_constraints : Forall ConstraintFact (cs_constraints s);
    g_st_constraints : Forall (Forall ConstraintFact) (cs_st_constraints s);
    g_unique : NoDup (omap entry_name (cs_result s));
    g_names : forall n, n ∈ omap entry_name (cs_result s) -> is_Some (cs_names s !! n);
    g_generators : forall n m, cs_generators s !! n = Some m -> Word (mg_source m) /\ no_newline (mg_source m) /\ known (mg_source m) = true }.
  Lemma good_init : Good cases_init.
  Proof. split; try done; try constructor. intros n Hn. by apply elem_of_nil in Hn. Qed.
  Lemma count_snoc (f : entry -> bool) es e : count f (es ++ [e]) = count f es + if f e then 1 else 0.
  Proof. rewrite count_app. f_equal. unfold count. cbn. by destruct (f e). Qed.
  Lemma phrase_name d : Phrase d -> no_newline d -> let n := List.filter (fun c => negb (is_blank c)) d in Word n /\ no_newline n.
  Proof.
    intros [[Hne Hh] Hb] Hn n. assert (forall c, c ∈ n -> c ∈ d /\ ~ Blank c) as Hin.
    { intros c Hc. apply elem_of_list_In, filter_In in Hc as [Hc Hf]. split; [by apply elem_of_list_In|]. intros Hbl. apply is_blank_spec in Hbl. by rewrite Hbl in Hf. }
    pose proof (proj1 (Forall_forall _ _) Hh) as Hh'. pose proof (proj1 (Forall_forall _ _) Hn) as Hn'. split.
    - split; [|apply Forall_forall; intros c Hc; destruct (Hin c Hc); split; [done|by apply Hh']].
      destruct d as [|c d]; [done|]. subst n. cbn. pose proof (Hb c eq_refl) as Hc. destruct (is_blank c) eqn:E; [|done]. apply is_blank_spec in E. done.
    - apply Forall_forall. intros c Hc. apply Hn'. by apply Hin.
  Qed.
  Lemma numbered_map_last f es : Numbered es -> (forall s, exists s', f (ESubtask s) = ESubtask s' /\ se_id s' = se_id s) -> (exists s, last es = Some (ESubtask s)) -> Numbered (map_last f es).
  Proof.
    intros H Hf [s Hs]. unfold map_last. rewrite Hs. inversion H as [|es' s' Hn Hid|es' t Hn Hid Hc]; subst.
    - done.
    - rewrite last_snoc in Hs. injection Hs as ->. destruct (Hf s) as (s'' & -> & Hid'). rewrite removelast_last. constructor; [done|congruence].
    - by rewrite last_snoc in Hs.
  Qed.
  Lemma count_map_last (f : entry -> bool) (g : entry -> entry) es : (forall e, f (g e) = f e) -> count f (map_last g es) = count f es.
  Proof.
    intros Hf. unfold map_last. destruct (last es) as [x|] eqn:Hl; [|done]. apply last_Some in Hl as [l ->]. rewrite removelast_last, !count_snoc. by rewrite Hf.
  Qed.
  Lemma names_map_last g es : (forall e, entry_name (g e) = entry_name e) -> omap entry_name (map_last g es) = omap entry_name es.
  Proof.
    intros Hg. unfold map_last. destruct (last es) as [x|] eqn:Hl; [|done]. apply last_Some in Hl as [l ->]. rewrite removelast_last, !omap_app. cbn. by rewrite Hg.
  Qed.
  Lemma names_snoc es e : omap entry_name (es ++ [e]) = omap entry_name es ++ match entry_name e with Some n => [n] | None => [] end.
  Proof. rewrite omap_app. cbn. by destruct (entry_name e). Qed.
  Lemma forall_map_last {A} (P : A -> Prop) g l : Forall P l -> (forall x, P x -> P (g x)) -> Forall P (map_last g l).
  Proof.
    intros H Hg. unfold map_last. destruct (last l) as [x|] eqn:Hl; [|done]. apply last_Some in Hl as [l' ->]. rewrite removelast_last. apply Forall_app in H as [H1 H2]. apply Forall_app. split; [done|].
    apply Forall_cons in H2 as [Hx _]. constructor; [by apply Hg|done].
  Qed.
  Lemma chain_fact items xs os : Chain items xs os -> (forall v, IVariable v ∈ items -> no_newline v) -> Forall OperandFact xs.
  Proof.
    assert (forall i x (items : list item), ItemOperand i x -> i ∈ items -> (forall v, IVariable v ∈ items -> no_newline v) -> OperandFact x) as Hx.
    { intros i x its Hi Hin H. destruct i as [t|v|o]; [|by rewrite Hi; apply H; destruct Hi|done]. destruct Hi as (k & -> & _). done. }
    induction 1 as [i x Hi|i x o rest xs os Hi Hc IH]; intros H.
    - constructor; [|done]. eapply Hx; [done| |done]. apply elem_of_list_here.
    - constructor; [eapply Hx; [done| |done]; apply elem_of_list_here|]. apply IH. intros v Hv. apply H. by do 2 apply elem_of_list_further.
  Qed.
  Lemma good_push i s : Good s -> cs_subtask_id s <> 0 -> match i with
        | StaticIn p => Phrase p /\ no_newline p
        | CustomIn src args => Word src /\ no_newline src /\ known src = true /\ Forall no_newline args
        end -> Good (push_testcase get_output i s).
  Proof.
    intros [] H0 Hi. split; cbn [push_testcase cs_result cs_subtask_id cs_testcase_id cs_constraints cs_st_constraints cs_generators cs_names]; try done.
    - apply Forall_app. split; [done|]. constructor; [|done]. by split.
    - constructor; [done|done|congruence].
    - rewrite count_snoc. cbn. lia.
    - rewrite count_snoc. cbn. lia.
    - rewrite names_snoc. cbn. by rewrite app_nil_r.
    - rewrite names_snoc. cbn. by rewrite app_nil_r.
  Qed.
  Lemma good_testcase line g s s' : Good s -> no_newline line -> cases_testcase split get_output file_name line g s = Some s' -> Good s'.
  Proof using split_newline.
    intros HG Hl. unfold cases_testcase. destruct (decide (cs_subtask_id s = 0)) as [|H0]; [done|]. destruct g as [g|]; [|done]. cbn [mbind option_bind].
    destruct (split line) as [args|] eqn:Hs; [|done]. cbn [mbind option_bind]. destruct (cs_generators s !! g) as [m|] eqn:Hm; [|done]. cbn [mbind option_bind].
    destruct (last (cs_st_constraints s)) as [extra|]; [|done]. cbn [mbind option_bind]. case_match; [done|]. intros [= <-].
    apply good_push; [done|done|]. destruct (g_generators s HG _ _ Hm) as (? & ? & ?). eauto.
  Qed.
  Lemma good_step l s s' : LineFact l -> constraint_shape l -> Good s -> cases_step split exists_file known get_output file_name s l = Some s' -> Good s'.
  Proof using split_newline.
    intros Hl Hsh HG. destruct l as [name [[path vars]|]|name [[path vars]|]|items|score d|ds|path|name args|args| |]; cbn [cases_step].
    - destruct (define_manager _ _ _ _ _ _ _ _) as [[d m]|] eqn:Hd; [|done]. cbn [mbind option_bind]. intros [= <-].
      destruct HG. split; cbn [cs_result cs_subtask_id cs_testcase_id cs_constraints cs_st_constraints cs_generators cs_names]; try done.
      unfold define_manager in Hd. destruct (exists_file path); [|done]. cbn [negb] in Hd. destruct (known path) eqn:Hk; [|done]. cbn [negb] in Hd.
      destruct (split vars) as [a|]; [|done]. cbn [mbind option_bind] in Hd. destruct (cs_generators s !! name); [done|]. injection Hd as <- <-.
      intros n m Hm. apply lookup_insert_Some in Hm as [[<- <-]|[_ Hm]]; [|by eapply g_generators0]. cbn [mg_source]. cbn [LineFact] in Hl. destruct Hl. done.
    - destruct (decide _); [done|]. case_match; [|done]. intros [= <-]. by destruct HG.
    - destruct (define_manager _ _ _ _ _ _ _ _) as [[d m]|] eqn:Hd; [|done]. cbn [mbind option_bind]. intros [= <-]. by destruct HG.
    - destruct (decide _); [done|]. destruct (find_validator _ _ _) as [v|]; [|done]. cbn [mbind option_bind]. destruct (last (cs_result s)) as [[st|t]|] eqn:Hlast; [|done|done]. intros [= <-].
      destruct HG. split; cbn [set_result cs_result cs_subtask_id cs_testcase_id cs_constraints cs_st_constraints cs_generators cs_names]; try done.
      + apply forall_map_last; [done|]. intros [e|e]; done.
      + apply numbered_map_last; [done| |by exists st]. intros e. eexists. split; [reflexivity|done].
      + rewrite count_map_last; [done|]. by intros [].
      + rewrite count_map_last; [done|]. by intros [].
      + rewrite names_map_last; [done|]. by intros [].
      + rewrite names_map_last; [done|]. by intros [].
    - destruct (parse_constraint items) as [c|] eqn:Hc; [|done]. cbn [mbind option_bind].
      assert (ConstraintFact c) as Hf. { destruct Hsh as [H1 H2]. apply (parse_constraint_spec _ _ H1 H2) in Hc. destruct Hc as (Hc & _). by eapply chain_fact. }
      destruct (decide _); intros [= <-]; destruct HG; split; cbn [cs_result cs_subtask_id cs_testcase_id cs_constraints cs_st_constraints cs_generators cs_names]; try done.
      + apply Forall_app. by split; [|constructor].
      + apply forall_map_last; [done|]. intros l H. apply Forall_app. by split; [|constructor].
    - destruct (bool_decide _) eqn:Hnew; [done|]. apply bool_decide_eq_false in Hnew. destruct (find_validator _ _ _) as [v|]; [|done]. cbn [mbind option_bind]. intros [= <-].
      destruct Hl as [Hdec Hd]. destruct HG. split; cbn [cs_result cs_subtask_id cs_testcase_id cs_constraints cs_st_constraints cs_generators cs_names]; try done.
      + apply Forall_app. split; [done|]. constructor; [|done]. split; [done|]. cbn [se_name]. intros n Hn. destruct d as [d|]; [|done]. injection Hn as <-. apply phrase_name; by apply Hd.
      + by constructor.
      + rewrite count_snoc. cbn. lia.
      + rewrite count_snoc. cbn. lia.
      + apply Forall_app. split; [done|]. constructor; done.
      + rewrite names_snoc. cbn [entry_name se_name]. destruct d as [d|]; cbn [fmap option_fmap option_map]; [|by rewrite app_nil_r]. apply NoDup_app. split_and!; [done| |apply NoDup_singleton].
        intros n Hin Hn. apply elem_of_list_singleton in Hn as ->. apply Hnew. cbn [fmap option_fmap option_map mbind option_bind]. by apply g_names0.
      + intros n. rewrite names_snoc. cbn [entry_name se_name]. destruct d as [d|]; cbn [fmap option_fmap option_map]; [|rewrite app_nil_r; apply g_names0]. rewrite elem_of_app. intros [Hin|Hin].
        * destruct (decide (n = List.filter (fun c => negb (is_blank c)) d)) as [->|Hne]; [rewrite lookup_insert; by eexists|]. rewrite lookup_insert_ne by done. by apply g_names0.
        * apply elem_of_list_singleton in Hin as ->. rewrite lookup_insert. by eexists.
    - destruct ds; [by intros [= <-]|]. destruct (last (cs_result s)) as [[st|t]|]; [|done|done]. intros [= <-]. by destruct HG.
    - destruct (decide _); [done|]. destruct (exists_file path); [|done]. cbn [negb]. intros [= <-]. by apply good_push.
    - destruct (decide _); [done|]. case_match; [|done]. intros H'. by eapply good_testcase.
    - intros H'. by eapply good_testcase.
    - by intros [= <-].
    - by intros [= <-].
  Qed.
  Lemma good_run ls s s' : Forall LineFact ls -> Forall constraint_shape ls -> Good s -> cases_run split exists_file known get_output file_name s ls = Some s' -> Good s'.
  Proof using split_newline.
    revert s. induction ls as [|l ls IH]; intros s Hf Hsh HG; cbn [cases_run]; [by intros [= <-]|]. apply Forall_cons in Hf as [Hl Hf]. apply Forall_cons in Hsh as [Hs Hsh].
    destruct (cases_step _ _ _ _ _ s l) as [s1|] eqn:H1; [|done]. cbn [mbind option_bind]. intros H. eapply IH; [done..| |done]. by eapply good_step.
  Qed.
  (** The dependencies change nothing else *)
  Lemma resolve_kind names n deps e e' : resolve_entry names n deps e = Some e' -> (EntryFact e -> EntryFact e') /\ match e, e' with
    | ESubtask s, ESubtask s' => se_id s' = se_id s /\ se_name s' = se_name s /\ se_score s' = se_score s
    | ETestcase t, ETestcase t' => t = t' | _, _ => False end.
  Proof.
    destruct e as [s|t]; cbn [resolve_entry]; [|by intros [= <-]]. destruct (deps !! se_id s); [|by intros [= <-]]. destruct (resolve _ _ _ _); [|done]. cbn [mbind option_bind]. by intros [= <-].
  Qed.
  Lemma resolved names n deps es es' : mapM (resolve_entry names n deps) es = Some es' -> Forall EntryFact es -> Numbered es -> Forall EntryFact es' /\ Numbered es' /\ count is_st es' = count is_st es /\ count is_tc es' = count is_tc es /\ omap entry_name es' = omap entry_name es.
  Proof.
    rewrite mapM_Some. revert es'. induction es as [|e es IH] using rev_ind; intros es' H Hf Hn.
    - apply Forall2_nil_inv_l in H as ->. done.
    - apply Forall2_app_inv_l in H as (es1 & es2 & H1 & H2 & ->). apply Forall2_cons_inv_l in H2 as (e' & es3 & He & H3 & ->). apply Forall2_nil_inv_l in H3 as ->.
      apply Forall_app in Hf as [Hf He0]. apply Forall_cons in He0 as [He0 _]. destruct (resolve_kind _ _ _ _ _ He) as [Hk1 Hk2].
      assert (Numbered es) as Hn'. { inversion Hn as [Heq|es' s' ? ? Heq|es' t' ? ? ? Heq]; [by destruct es|..]; apply app_inj_tail in Heq as [-> _]; done. }
      destruct (IH es1 H1 Hf Hn') as (A & B & C & D & E). split; [apply Forall_app; split; [done|]; constructor; [by apply Hk1|done]|].
      rewrite !count_snoc. inversion Hn as [Heq|es' s' Hp1 Hp2 Heq|es' t' Hp1 Hp2 Hp3 Heq]; [by destruct es|..]; apply app_inj_tail in Heq as [-> <-].
      + destruct e' as [s''|]; [|done]. destruct Hk2 as (Hid & Hk2). split; [constructor; [done|congruence]|]. split; [cbn; lia|]. split; [cbn; lia|]. rewrite !names_snoc, E. cbn. destruct Hk2 as [-> _]. done.
      + destruct e' as [|t'']; [done|]. subst t''. split; [constructor; [done|congruence|congruence]|]. split; [cbn; lia|]. split; [cbn; lia|]. by rewrite !names_snoc, E.
  Qed.
End facts.
