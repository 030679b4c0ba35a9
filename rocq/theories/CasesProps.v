(** * CasesProps: C44, C45, C64 *)
From Verif Require Import CasesSpec TaskSpec FormatProofs FormatProofs2 FormatProofs3 FormatProofs4 CasesProofs CasesProofs2 CasesProofs3 CasesProofs4 FormatProps TaskProps.

(** ** C45: gen/cases.gen *)
(** The lines that are accepted, and how they are read *)
Theorem C45_lines t l : parse_cases_line t = Some l <-> CasesLine t l.
Proof. split; [apply cases_line_sound|apply cases_line_complete]. Qed.
Theorem C45_file content ls : parse_cases_lines content = Some ls <-> exists ts, Lines content ts /\ Forall2 CasesLine ts ls.
Proof.
  unfold parse_cases_lines. rewrite mapM_Some. split.
  - intros H. exists (split_lines content). split; [apply lines_split_lines|]. eapply Forall2_impl; [exact H|]. intros t l. apply C45_lines.
  - intros (ts & Hl & H). rewrite (split_lines_lines _ _ Hl). eapply Forall2_impl; [exact H|]. intros t l. apply C45_lines.
Qed.
Section props.
  Context (split : text -> option (list text)) (exists_file known : text -> bool) (get_output : nat -> output_gen) (file_name : text).
  Notation parse := (parse_cases_gen split exists_file known get_output file_name).
  Notation Task := (CasesTask split get_output file_name).
  Notation Ok := (CasesOk split exists_file known file_name).
  Notation LineOk := (CasesLineOk split exists_file known file_name).
  Lemma cases_inv content es : parse content = Some es <-> exists ls s, parse_cases_lines content = Some ls /\ cases_run split exists_file known get_output file_name cases_init ls = Some s /\
    mapM (resolve_entry (cs_names s) (cs_subtask_id s) (cs_deps s)) (cs_result s) = Some es.
  Proof.
    unfold parse_cases_gen. split.
    - destruct (parse_cases_lines content) as [ls|]; [|done]. cbn [mbind option_bind]. destruct (cases_run _ _ _ _ _ _ ls) as [s|] eqn:Hs; [|done]. cbn [mbind option_bind]. intros H. by exists ls, s.
    - intros (ls & s & -> & Hs & H). cbn [mbind option_bind]. rewrite Hs. done.
  Qed.
  (** The files that are accepted *)
  Theorem C45_accepted content : is_Some (parse content) <-> exists ts ls, Lines content ts /\ Forall2 CasesLine ts ls /\ Ok ls.
  Proof.
    split.
    - intros [es H]. apply cases_inv in H as (ls & s & Hl & Hs & Hm). apply C45_file in Hl as (ts & Ht & Hf). exists ts, ls. split_and!; [done..|].
      apply (cases_accepted split exists_file known get_output file_name ls (lines_shape _ _ Hf)). rewrite Hs. cbn [mbind option_bind]. by eexists.
    - intros (ts & ls & Ht & Hf & Hok). assert (parse_cases_lines content = Some ls) as Hl by (apply C45_file; by exists ts).
      apply (cases_accepted split exists_file known get_output file_name ls (lines_shape _ _ Hf)) in Hok as [es Hes]. destruct (cases_run _ _ _ _ _ _ ls) as [s|] eqn:Hs; [|done]. exists es. apply cases_inv. by exists ls, s.
  Qed.
  (** The task they describe *)
  Theorem C45_task content es : parse content = Some es -> exists ts ls sts tcs, Lines content ts /\ Forall2 CasesLine ts ls /\ Ok ls /\ assemble es = Some (sts, tcs) /\ Task ls sts tcs.
  Proof.
    intros H. apply cases_inv in H as (ls & s & Hl & Hs & Hm). apply C45_file in Hl as (ts & Ht & Hf).
    assert (Ok ls) as Hok by (apply (cases_accepted split exists_file known get_output file_name ls (lines_shape _ _ Hf)); rewrite Hs; cbn [mbind option_bind]; by eexists).
    destruct (proj2 (cases_run_spec split exists_file known get_output file_name ls (lines_shape _ _ Hf)) s Hs) as (_ & a & HK).
    destruct (cases_task _ _ _ _ _ _ _ HK Hm) as (sts & tcs & Ha & HG). by exists ts, ls, sts, tcs.
  Qed.
  (** ... which is only one *)
  Lemma through_unique ls id part part' : Through ls id part -> Through ls id part' -> part = part'.
  Proof.
    assert (forall part part' rest rest', part ++ rest = part' ++ rest' -> subtasks_in part = subtasks_in part' -> (rest = [] \/ exists n d r, rest = CSubtask n d :: r) -> exists more, part = part' ++ more) as H.
    { clear part part'. intros part part' rest rest' Heq Hn Hr. revert part' Heq Hn. induction part as [|x part IH]; intros part' Heq Hn.
      - destruct part' as [|y part']; [by exists []|]. exfalso. cbn in Heq. subst rest. destruct Hr as [?|(n & d & r & [= -> _])]; [done|]. rewrite subtasks_in_cons in Hn. cbn in Hn. change (subtasks_in []) with 0 in Hn. lia.
      - destruct part' as [|y part']; [by eexists|]. cbn in Heq. injection Heq as <- Heq. rewrite !subtasks_in_cons in Hn. destruct (IH part' Heq ltac:(lia)) as [more ->]. by exists more. }
    intros (r & Hr & Hn & Hs) (r' & Hr' & Hn' & Hs'). destruct (H part part' r r') as [m1 H1]; [congruence|lia|done|]. destruct (H part' part r' r) as [m2 H2]; [congruence|lia|done|].
    assert (m1 = [] /\ m2 = []) as [-> _]; [|by rewrite H1, app_nil_r]. rewrite H1, <- app_assoc in H2. rewrite <- (app_nil_r part') in H2 at 1. apply app_inv_head in H2. symmetry in H2. by apply app_eq_nil in H2 as [? ?].
  Qed.
  Lemma prefix_ok ls b l a : everywhere LineOk ls -> ls = b ++ l :: a -> everywhere LineOk b.
  Proof. intros H -> b' l' a' ->. apply (H b' l' (a' ++ l :: a)). by rewrite <- app_assoc. Qed.
  Lemma val_unique ls n p v p' v' : everywhere LineOk ls -> CVal n (Some (p, v)) ∈ ls -> CVal n (Some (p', v')) ∈ ls -> p = p' /\ v = v'.
  Proof.
    induction ls as [|x ls IH] using rev_ind; intros Hok H1 H2; [by apply elem_of_nil in H1|]. apply everywhere_snoc in Hok as [Hok Hx].
    assert (forall q w, CVal n (Some (q, w)) ∈ ls -> CVal n (Some (q, w)) = x -> False) as Hno.
    { intros q w Hin <-. cbn in Hx. destruct Hx as (_ & _ & _ & Hx). apply Hx, val_names_elem. by exists q, w. }
    apply elem_snoc in H1 as [H1|H1], H2 as [H2|H2].
    - by apply IH.
    - exfalso. subst x. destruct Hx as (_ & _ & _ & Hx). apply Hx, val_names_elem. by exists p, v.
    - exfalso. subst x. destruct Hx as (_ & _ & _ & Hx). apply Hx, val_names_elem. by exists p', v'.
    - rewrite <- H1 in H2. by injection H2 as -> ->.
  Qed.
  Lemma auto_unique id nm v t t' : AutoVar file_name id nm v t -> AutoVar file_name id nm v t' -> t = t'.
  Proof. intros [[-> ->]|[[-> ->]|[-> H]]] [[H1 ->]|[[H1 ->]|[H1 H2]]]; try done; congruence. Qed.
  Lemma validator_unique ls id nm c v v' : everywhere LineOk ls -> ValidatorIs split file_name ls id nm c v -> ValidatorIs split file_name ls id nm c v' -> v = v'.
  Proof.
    intros Hok. destruct c as [n|]; cbn; [|congruence]. intros (p & w & args & vals & Hd & Hs & -> & H) (p' & w' & args' & vals' & Hd' & Hs' & -> & H').
    destruct (val_unique ls n p w p' w' Hok Hd Hd') as [<- <-]. assert (args' = args) as -> by congruence. f_equal.
    destruct H as [[-> ->]|[Hne H]], H' as [[? ->]|[Hne' H']]; try done. clear -H H' split. revert vals' H'. induction H as [|a t args vals (v & Hv & Ht) _ IH]; intros vals' H'; inversion H' as [|? t' ? ? (v' & Hv' & Ht') H'']; subst; [done|].
    f_equal; [|by apply IH]. apply without_dollar in Hv, Hv'. subst. by eapply auto_unique.
  Qed.
  Theorem C45_unique ls sts tcs sts' tcs' : Ok ls -> Task ls sts tcs -> Task ls sts' tcs' -> sts = sts' /\ tcs = tcs'.
  Proof.
    intros [Hok _] H H'. split.
    2:{ apply map_eq. intros k. apply option_eq. intros t. by rewrite (ct_testcases _ _ _ _ _ _ H), (ct_testcases _ _ _ _ _ _ H'). }
    assert (forall id s s', sts !! id = Some s -> sts' !! id = Some s' -> se_name (st_info s) = se_name (st_info s') /\ se_score (st_info s) = se_score (st_info s')) as Hname.
    { intros id s s' Hs Hs'. destruct (ct_info _ _ _ _ _ _ H id s Hs) as (_ & _ & b & l & a & Hb & d & -> & Hn & Hid). destruct (ct_info _ _ _ _ _ _ H' id s' Hs') as (_ & _ & b' & l' & a' & Hb' & d' & -> & Hn' & Hid').
      destruct (split_unique _ _ _ _ _ _ _ _ _ Hb Hb') as (_ & ? & <-); [lia|]. split; congruence. }
    assert (forall id s, sts !! id = Some s -> exists s', sts' !! id = Some s') as Hex.
    { intros id s Hs. apply (ct_ids _ _ _ _ _ _ H'), (ct_ids _ _ _ _ _ _ H). by eexists. }
    assert (forall id s, sts' !! id = Some s -> exists s', sts !! id = Some s') as Hex'.
    { intros id s Hs. apply (ct_ids _ _ _ _ _ _ H), (ct_ids _ _ _ _ _ _ H'). by eexists. }
    apply map_eq. intros id. destruct (sts !! id) as [s|] eqn:Hs.
    2:{ destruct (sts' !! id) as [s'|] eqn:Hs'; [|done]. destruct (Hex' _ _ Hs'). congruence. }
    destruct (Hex _ _ Hs) as [s' Hs']. rewrite Hs'. f_equal.
    destruct (ct_info _ _ _ _ _ _ H id s Hs) as (Hid & Hdef & _). destruct (ct_info _ _ _ _ _ _ H' id s' Hs') as (Hid' & Hdef' & _).
    destruct (ct_sorted _ _ _ _ _ _ H id s Hs) as [Hso Hst]. destruct (ct_sorted _ _ _ _ _ _ H' id s' Hs') as [Hso' Hst']. destruct (Hname _ _ _ Hs Hs') as [Hn Hsc].
    assert (st_owned s = st_owned s') as Hown. { apply sorted_unique; [done..|]. intros k. by rewrite (ct_owned _ _ _ _ _ _ H id s k Hs), (ct_owned _ _ _ _ _ _ H' id s' k Hs'). }
    assert (se_validator (st_info s) = se_validator (st_info s')) as Hval.
    { destruct (ct_validator _ _ _ _ _ _ H id s Hs) as (p & HT & Hv). destruct (ct_validator _ _ _ _ _ _ H' id s' Hs') as (p' & HT' & Hv').
      rewrite <- (through_unique _ _ _ _ HT HT'), <- Hn in Hv'. by apply (validator_unique ls id (se_name (st_info s)) (current_val p)). }
    assert (se_deps (st_info s) = se_deps (st_info s')) as Hdeps.
    { apply sorted_unique; [by apply (ct_deps_sorted _ _ _ _ _ _ H id)|by apply (ct_deps_sorted _ _ _ _ _ _ H' id)|]. intros j.
      rewrite (ct_deps _ _ _ _ _ _ H id s j Hs), (ct_deps _ _ _ _ _ _ H' id s' j Hs'). apply somewhere_iff. intros b l af _.
      assert (forall d, (exists s1, sts !! j = Some s1 /\ se_name (st_info s1) = Some d) <-> (exists s1, sts' !! j = Some s1 /\ se_name (st_info s1) = Some d)) as Hd.
      { intros d. split; intros (s1 & H1 & H2); [destruct (Hex _ _ H1) as [s2 H3]|destruct (Hex' _ _ H1) as [s2 H3]]; exists s2; (split; [done|]); [destruct (Hname _ _ _ H1 H3) as [<- _]|destruct (Hname _ _ _ H3 H1) as [-> _]]; done. }
      split; intros (ds & d & ? & ? & ? & Hc); exists ds, d; (split_and!; [done..|]); (destruct Hc as [?|[? Hc]]; [by left|right; split; [done|by apply Hd]]). }
    destruct s as [[? ? ? ? ? ?] ? ?], s' as [[? ? ? ? ? ?] ? ?]. cbn in *. subst. done.
  Qed.
  (** Different subtasks have different names *)
  Theorem C45_names content es sts tcs id id' s s' n : parse content = Some es -> assemble es = Some (sts, tcs) -> sts !! id = Some s -> sts !! id' = Some s' ->
    se_name (st_info s) = Some n -> se_name (st_info s') = Some n -> id = id'.
  Proof.
    intros H Ha Hs Hs' Hn Hn'. apply C45_task in H as (ts & ls & sts' & tcs' & _ & _ & [Hok _] & Ha' & HT). rewrite Ha in Ha'. injection Ha' as <- <-.
    destruct (ct_info _ _ _ _ _ _ HT id s Hs) as (_ & _ & b & l & a & Hb & d & -> & Hd & Hid). destruct (ct_info _ _ _ _ _ _ HT id' s' Hs') as (_ & _ & b' & l' & a' & Hb' & d' & -> & Hd' & Hid').
    assert (forall b sc d a b' sc' d' a', ls = b ++ CSubtask sc d :: a -> ls = b' ++ CSubtask sc' d' :: a' -> name_of d = Some n -> name_of d' = Some n -> subtasks_in b < subtasks_in b' -> False) as Hno.
    { clear -Hok. intros b sc d a b' sc' d' a' Hb Hb' Hn Hn' Hlt. pose proof (Hok _ _ _ Hb') as Hx. cbn in Hx. destruct Hx as [Hx _]. apply (Hx n Hn').
      destruct (nth_subtask b' (subtasks_in b) Hlt) as (b1 & sc1 & d1 & a1 & Hb1 & Hn1). assert (ls = b1 ++ CSubtask sc1 d1 :: (a1 ++ CSubtask sc' d' :: a')) as H1 by (by rewrite Hb', Hb1, <- app_assoc).
      destruct (split_unique _ _ _ _ _ _ _ _ _ Hb H1) as (<- & <- & <-); [done|]. exists b, (CSubtask sc d), a1. split; [done|]. by exists sc, d. }
    destruct (decide (subtasks_in b < subtasks_in b')) as [Hlt|Hge]; [exfalso; eapply (Hno b _ d a b' _ d' a'); [done..|congruence|congruence|lia]|].
    destruct (decide (subtasks_in b' < subtasks_in b)) as [Hlt|Hge']; [exfalso; eapply (Hno b' _ d' a' b _ d a); [done..|congruence|congruence|lia]|]. lia.
  Qed.
  (** The dependencies of the subtasks can be followed (C42) *)
  Theorem C42_cases ls sts tcs : Task ls sts tcs -> just_parsed sts.
  Proof.
    intros HT. split.
    - intros id j (s & Hs & Hj). apply (ct_deps _ _ _ _ _ _ HT id s j Hs) in Hj as (b & l & a & _ & ds & d & _ & _ & _ & [[_ H]|(_ & s' & H & _)]); [by apply (ct_ids _ _ _ _ _ _ HT)|by eexists].
    - intros id s Hs. by apply (ct_sorted _ _ _ _ _ _ HT id).
  Qed.

  (** ** C44: the constraints *)
  (** A chain is satisfied iff all the consecutive pairs are in the relation; it is violated iff a pair is not, and what comes before it can be evaluated *)
  Theorem C44_chain items c vars : ConstraintOf items c ->
    (constraint_valid vars c = Some true <-> Satisfied (fun v t => vars !! v = Some t) c) /\ (constraint_valid vars c = Some false <-> Violated (fun v t => vars !! v = Some t) c).
  Proof. intros [Hc _]. apply chain_length in Hc as [Hlen _]. split; [by apply constraint_true|by apply constraint_false]. Qed.
  (** The lines that are read as constraints: at least two operands, and not both directions *)
  Theorem C44_parse t items : parse_cases_line t = Some (CConstraint items) -> forall c, parse_constraint items = Some c <-> ConstraintOf items c.
  Proof. intros H c. apply C45_lines, line_shape in H as [H1 H2]. by apply parse_constraint_spec. Qed.
  (** In a file that is accepted, the variables of every testcase made with a generator violate no constraint that comes before, outside the subtasks or in this one *)
  Theorem C44_enforced content ts ls before l after n line : is_Some (parse content) -> Lines content ts -> Forall2 CasesLine ts ls -> ls = before ++ l :: after ->
    l = CRun n line \/ l = CTestcase line /\ current_gen before = Some n ->
    exists path vars defs args, CGen n (Some (path, vars)) ∈ before /\ split vars = Some defs /\ split line = Some args /\
      forall c, InForce before c -> ~ Violated (TestVar file_name (subtasks_in before - 1) (current_name before) defs args) c.
  Proof.
    intros [es H] Ht Hf Hls Hl. apply cases_inv in H as (ls' & s & Hl' & Hs & Hm). assert (ls' = ls) as ->. { assert (parse_cases_lines content = Some ls) as H by (apply C45_file; by exists ts). congruence. }
    assert (Ok ls) as [Hok _] by (apply (cases_accepted split exists_file known get_output file_name ls (lines_shape _ _ Hf)); rewrite Hs; cbn [mbind option_bind]; by eexists).
    pose proof (Hok _ _ _ Hls) as Hx. destruct Hl as [->|[-> Hg]]; cbn in Hx; [by destruct Hx as [_ Hx]|]. destruct Hx as (n' & Hn' & _ & Hx). rewrite Hg in Hn'. by injection Hn' as <-.
  Qed.
  (** If everything can be evaluated, they are satisfied *)
  Theorem C44_satisfied (V : text -> text -> Prop) (c : constraint) : ~ Violated V c ->
    (forall v, Var v ∈ co_operands c -> exists t z, V v t /\ Integer t z) -> Satisfied V c.
  Proof.
    intros Hv Hall. assert (exists zs, Forall2 (OperandVal V) (co_operands c) zs) as [zs Hzs].
    { clear -Hall. induction (co_operands c) as [|x xs IH]; [by exists []|]. destruct IH as [zs Hzs]; [intros v Hv; apply Hall; by right|]. destruct x as [k|v].
      - exists (k :: zs). by constructor.
      - destruct (Hall v) as (t & z & Ht & Hz); [left|]. exists (z :: zs). constructor; [by exists t|done]. }
    exists zs. split; [done|]. intros i o a b Ho Ha Hb. destruct (compare_op o a b) eqn:E; [by apply compare_op_spec|]. assert (~ Rel o a b) as Hr by (intros Hr; apply compare_op_spec in Hr; congruence). exfalso. apply Hv. exists i, o, (take (i + 2) zs), (drop (i + 2) (co_operands c)), a, b.
    split_and!; [by apply Forall2_take|by rewrite take_drop|done|rewrite lookup_take by lia; done|rewrite lookup_take by lia; done|done].
  Qed.
End props.

(** ** Examples *)
(** [shell_words::split] without quotes *)
Fixpoint plain_words (word : text) (t : text) : list text :=
  match t with
  | [] => match word with [] => [] | _ => [rev word] end
  | c :: t => if is_blank c then match word with [] => plain_words [] t | _ => rev word :: plain_words [] t end else plain_words (c :: word) t
  end.
Definition plain_split (t : text) : option (list text) := Some (plain_words [] t).
Definition lines_of (l : list String.string) : text := concat (map (fun t => chars t ++ newline) l).
Definition example_parse (l : list String.string) : option (list entry) :=
  parse_cases_gen plain_split (fun p => bool_decide (p <> chars "missing.py")) (fun _ => true) example_output (chars "tm_validation_file") (lines_of l).
Definition example_summary (l : list String.string) :=
  es ← example_parse l; '(sts, tcs) ← assemble es;
  Some (map (fun id => s ← sts !! id; Some (se_score (st_info s), se_name (st_info s), se_validator (st_info s), se_deps (st_info s), st_owned s)) (seq 0 (size sts)),
        map (fun k => t ← tcs !! k; Some (te_input t)) (seq 0 (size tcs))).
Definition example_cases : list String.string := ([
  ":GEN hard gen/hard.py N M S"; ":GEN default gen/gen.py N S"; ":VAL val val/val.py"; ":CONSTRAINT 1 <= $N <= 1000"; "# samples"; ":SUBTASK 0 the samples"; ":COPY statement/in0.txt";
  ":SUBTASK 40.5 small"; ":VAL val"; ":CONSTRAINT $N < 10"; "5 42"; "9 43 # the largest"; ":SUBTASK 60"; ":STDEP thesamples small"; ":GEN hard"; "900 100 7"; ":RUN default 1000 7"])%string.
Theorem C45_example : example_summary example_cases = Some (
  let v id := CustomVal (chars "val/val.py") [chars "tm_validation_file"; chars id] in
  [Some (chars "0", Some (chars "thesamples"), v "0"%string, [], [0]); Some (chars "40.5", Some (chars "small"), v "1"%string, [], [1; 2]); Some (chars "60", None, v "2"%string, [0; 1], [3; 4])],
  [Some (StaticIn (chars "statement/in0.txt")); Some (CustomIn (chars "gen/gen.py") [chars "5"; chars "42"]); Some (CustomIn (chars "gen/gen.py") [chars "9"; chars "43"]);
   Some (CustomIn (chars "gen/hard.py") [chars "900"; chars "100"; chars "7"]); Some (CustomIn (chars "gen/gen.py") [chars "1000"; chars "7"])]).
Proof. by vm_compute. Qed.
(** What is not accepted: a testcase that violates a constraint, a testcase outside the subtasks, a generator or a subtask that is not there, a constraint with both directions *)
Theorem C45_example_rejected : Forall (fun l => example_parse l = None) ([
  [":GEN g gen/gen.py N"; ":CONSTRAINT 1 <= $N <= 1000"; ":SUBTASK 40"; "1001"]; [":GEN g gen/gen.py N"; ":SUBTASK 40"; ":CONSTRAINT $N < 10"; "10"]; [":GEN g gen/gen.py N"; "5"];
  [":SUBTASK 40"; ":RUN g 5"]; [":SUBTASK 40"; ":STDEP other"]; [":CONSTRAINT 1 < $N > 5"]; [":CONSTRAINT $N"]; [":GEN g missing.py N"]; [":SUBTASK 40 a"; ":SUBTASK 60 a"]; [":SUBTASK x"];
  [":GEN g gen/gen.py N"; ":SUBTASK 40"; "5"; ":VAL v"]])%string.
Proof. repeat (apply List.Forall_cons; [by vm_compute|]). apply List.Forall_nil. Qed.

(** ** What does not hold *)
(** A constraint without blanks around the operators is accepted and it is about another variable: it is never checked *)
Theorem C44_no_blanks_refuted : parse_cases_line (chars ":CONSTRAINT 1<=$N<=500") = Some (CConstraint [INumber (chars "1"); IOperator LessEqual; IVariable (chars "N<=500")]) /\
  is_Some (example_parse [":GEN g gen/gen.py N"; ":CONSTRAINT 1<=$N<=500"; ":SUBTASK 40"; "501"; "0"]%string) /\
  example_parse [":GEN g gen/gen.py N"; ":CONSTRAINT 1 <= $N <= 500"; ":SUBTASK 40"; "501"; "0"]%string = None.
Proof. split_and!; [by vm_compute| |by vm_compute]. apply not_eq_None_Some. by vm_compute. Qed.
(** A constraint is not checked on the testcases of its subtask that come before it, nor on the inputs that are copied, nor if a value is not an integer of 64 bits *)
Theorem C44_late_refuted : is_Some (example_parse [":GEN g gen/gen.py N"; ":SUBTASK 40"; "501"; ":CONSTRAINT $N <= 500"]%string) /\
  is_Some (example_parse [":GEN g gen/gen.py N"; ":SUBTASK 40"; ":CONSTRAINT $N <= 500"; "9223372036854775808"; "1e9"]%string) /\
  is_Some (example_parse [":GEN g gen/gen.py N M"; ":SUBTASK 40"; ":CONSTRAINT $M <= $N <= 500"; "501"]%string) /\
  example_parse [":GEN g gen/gen.py N"; ":SUBTASK 40"; ":CONSTRAINT $N <= 500"; "501"]%string = None.
Proof. split_and!; [..|by vm_compute]; apply not_eq_None_Some; by vm_compute. Qed.
(** A line that looks empty, or a comment with a blank before it, is a testcase *)
Theorem C45_blank_line_refuted : parse_cases_line (chars "  ") = Some (CTestcase (chars "  ")) /\ parse_cases_line (chars "  # a comment") = Some (CTestcase (chars "  ")) /\
  (length <$> example_parse [":GEN g gen/gen.py N"; ":SUBTASK 40"; "5"; ""; "6"]%string) = Some 3 /\ (length <$> example_parse [":GEN g gen/gen.py N"; ":SUBTASK 40"; "5"; " "; "6"]%string) = Some 4.
Proof. by vm_compute. Qed.
(** The blanks before a comment are part of the path of a COPY *)
Theorem C45_copy_comment_refuted : parse_cases_line (chars ":COPY in.txt # the first") = Some (CCopy (chars "in.txt ")) /\ parse_cases_line (chars ":COPY in.txt#the first") = Some (CCopy (chars "in.txt")).
Proof. by vm_compute. Qed.

(** ** C64: static inputs *)
(** A subtask of 100 points with one testcase for each of the files input0.txt, input1.txt, ... up to the first that is missing *)
Lemma static_run exists_input get_output n : forall fuel index s sts tcs own,
  (forall k, index <= k < n -> exists_input k = true) -> exists_input n = false -> index <= n -> n - index < fuel -> own = seq 0 index -> st_owned s = own -> st_testcases s = own ->
  exists tcs', assemble_run (Assembly sts tcs (Some s)) (static_testcases exists_input get_output fuel index) = Some (Assembly sts tcs' (Some (Subtask (st_info s) (seq 0 n) (seq 0 n)))) /\
    forall k, tcs' !! k = if decide (index <= k < n) then Some (TestcaseEntry k (StaticIn (input_path k)) (get_output k)) else tcs !! k.
Proof.
  induction fuel as [|fuel IH]; intros index s sts tcs own Hall Hn Hle Hf Hown H1 H2; [lia|]. cbn [static_testcases]. destruct (decide (index = n)) as [->|Hne].
  - rewrite Hn. exists tcs. cbn. split; [|intros k; rewrite decide_False by lia; done]. destruct s as [i t o]. cbn in *. by subst.
  - rewrite Hall by lia. cbn [assemble_run assemble_step as_last mbind option_bind as_subtasks as_testcases te_id].
    destruct (IH (index + 1) (Subtask (st_info s) (st_testcases s ++ [index]) (st_owned s ++ [index])) sts (<[index := TestcaseEntry index (StaticIn (input_path index)) (get_output index)]> tcs) (seq 0 (index + 1))) as (tcs' & Hr & Ht); [intros k ?; apply Hall; lia|done|lia|lia|done|cbn; rewrite ?H1, ?H2, Hown, Nat.add_1_r, seq_S; done..|].
    exists tcs'. split; [exact Hr|]. intros k. rewrite Ht. destruct (decide (index + 1 <= k < n)) as [?|Hk]; [rewrite decide_True by lia; done|]. destruct (decide (k = index)) as [->|Hki].
    + rewrite decide_True by lia. by rewrite lookup_insert.
    + rewrite lookup_insert_ne by done. rewrite decide_False by lia. done.
Qed.
Theorem C64_static exists_input get_validator get_output n fuel : (forall k, k < n -> exists_input k = true) -> exists_input n = false -> n < fuel ->
  exists sts tcs, assemble (static_inputs exists_input get_validator get_output fuel) = Some (sts, tcs) /\
    sts = {[ 0 := Subtask (SubtaskEntry 0 (Some (chars "static-testcases")) (chars "100") true (get_validator 0) []) (seq 0 n) (seq 0 n) ]} /\
    (forall k t, tcs !! k = Some t <-> k < n /\ t = TestcaseEntry k (StaticIn (input_path k)) (get_output k)) /\ just_parsed sts.
Proof.
  intros Hall Hn Hf. unfold static_inputs, assemble. cbn [assemble_run assemble_step mbind option_bind].
  destruct (static_run exists_input get_output n fuel 0 (Subtask (SubtaskEntry 0 (Some (chars "static-testcases")) (chars "100") true (get_validator 0) []) [] []) (flush_last (Assembly ∅ ∅ None)) ∅ []) as (tcs & Hr & Ht); [intros k [_ ?]; by apply Hall|done|lia|lia|done..|].
  cbn [as_testcases]. rewrite Hr. cbn [mbind option_bind]. exists {[ 0 := Subtask (SubtaskEntry 0 (Some (chars "static-testcases")) (chars "100") true (get_validator 0) []) (seq 0 n) (seq 0 n) ]}, tcs. split; [done|]. split; [done|]. split.
  - intros k t. cbn. rewrite Ht, lookup_empty. destruct (decide (0 <= k < n)) as [?|?]; [split; [intros [= <-]; split; [lia|done]|by intros [_ ->]]|split; [done|lia]].
  - split.
    + intros id j (s & Hs & Hj). apply lookup_singleton_Some in Hs as [<- <-]. by apply elem_of_nil in Hj.
    + intros id s Hs. apply lookup_singleton_Some in Hs as [<- <-]. cbn. split; [|done]. clear. generalize 0. induction n as [|n IH]; intros i; cbn; constructor; [apply IH|]. apply Forall_forall. intros x Hx. apply elem_of_seq in Hx. lia.
Qed.

Print Assumptions C45_lines.
Print Assumptions C45_file.
Print Assumptions C45_accepted.
Print Assumptions C45_task.
Print Assumptions C45_unique.
Print Assumptions C45_names.
Print Assumptions C42_cases.
Print Assumptions C44_chain.
Print Assumptions C44_parse.
Print Assumptions C44_enforced.
Print Assumptions C44_satisfied.
Print Assumptions C45_example.
Print Assumptions C45_example_rejected.
Print Assumptions C44_no_blanks_refuted.
Print Assumptions C44_late_refuted.
Print Assumptions C45_blank_line_refuted.
Print Assumptions C45_copy_comment_refuted.
Print Assumptions C64_static.
