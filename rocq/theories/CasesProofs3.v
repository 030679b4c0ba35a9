(** * CasesProofs3: gen/cases.gen, the run *)
From Verif Require Import CasesSpec FormatProofs FormatProofs2 FormatProofs3 CasesProofs2.

(** ** A line more *)
Lemma subtasks_in_snoc ls x : subtasks_in (ls ++ [x]) = subtasks_in ls + (if opens x then 1 else 0).
Proof. unfold subtasks_in. rewrite count_app. f_equal. unfold count. cbn. by destruct (opens x). Qed.
Lemma subtasks_in_app l1 l2 : subtasks_in (l1 ++ l2) = subtasks_in l1 + subtasks_in l2.
Proof. unfold subtasks_in. by rewrite count_app. Qed.
Lemma subtasks_in_cons x l : subtasks_in (x :: l) = (if opens x then 1 else 0) + subtasks_in l.
Proof. unfold subtasks_in, count. cbn [List.filter]. destruct (opens x); done. Qed.
Lemma testcases_in_snoc ls x : testcases_in (ls ++ [x]) = testcases_in ls + (if makes_test x then 1 else 0).
Proof. unfold testcases_in. rewrite count_app. f_equal. unfold count. cbn. by destruct (makes_test x). Qed.
Lemma after_subtask_snoc ls x : after_subtask (ls ++ [x]) = if opens x || makes_test x then opens x else after_subtask ls.
Proof. unfold after_subtask. rewrite rev_unit. cbn [List.find]. by destruct (opens x || makes_test x). Qed.
Lemma current_name_snoc ls x : current_name (ls ++ [x]) = match x with CSubtask _ d => name_of d | _ => current_name ls end.
Proof. unfold current_name. rewrite rev_unit. by destruct x. Qed.
Lemma gen_names_snoc ls x : gen_names (ls ++ [x]) = gen_names ls ++ match x with CGen n (Some _) => [n] | _ => [] end.
Proof. unfold gen_names. rewrite omap_app. f_equal. by destruct x as [? []| | | | | | | | |]. Qed.
Lemma val_names_snoc ls x : val_names (ls ++ [x]) = val_names ls ++ match x with CVal n (Some _) => [n] | _ => [] end.
Proof. unfold val_names. rewrite omap_app. f_equal. by destruct x as [|? []| | | | | | | |]. Qed.
Lemma current_gen_snoc ls x : current_gen (ls ++ [x]) = match x with CGen n None => Some n | CSubtask _ _ => default_name (gen_names ls) | _ => current_gen ls end.
Proof. unfold current_gen. rewrite rev_unit. destruct x as [? []| | | | | | | | |]; cbn; rewrite ?rev_involutive; done. Qed.
Lemma current_val_snoc ls x : current_val (ls ++ [x]) = match x with CVal n None => Some n | CSubtask _ _ => default_name (val_names ls) | _ => current_val ls end.
Proof. unfold current_val. rewrite rev_unit. destruct x as [|? []| | | | | | | |]; cbn; rewrite ?rev_involutive; done. Qed.
Lemma elem_snoc {A} (x y : A) l : x ∈ l ++ [y] <-> x ∈ l \/ x = y.
Proof. rewrite elem_of_app, elem_of_list_singleton. done. Qed.
Lemma gen_names_elem ls n : n ∈ gen_names ls <-> exists p v, CGen n (Some (p, v)) ∈ ls.
Proof.
  unfold gen_names. rewrite elem_of_list_omap. split.
  - intros (l & Hl & H). destruct l as [m [[p v]|]| | | | | | | | |]; try done. injection H as ->. by exists p, v.
  - intros (p & v & H). by exists (CGen n (Some (p, v))).
Qed.
Lemma val_names_elem ls n : n ∈ val_names ls <-> exists p v, CVal n (Some (p, v)) ∈ ls.
Proof.
  unfold val_names. rewrite elem_of_list_omap. split.
  - intros (l & Hl & H). destruct l as [|m [[p v]|]| | | | | | | |]; try done. injection H as ->. by exists p, v.
  - intros (p & v & H). by exists (CVal n (Some (p, v))).
Qed.
Lemma default_name_None names : default_name names = None <-> names = [].
Proof. unfold default_name. destruct (decide _) as [H|H]; [|by destruct names]. split; [done|]. intros ->. by apply elem_of_nil in H. Qed.
Lemma default_name_snoc names n : default_name (names ++ [n]) = if bool_decide (default_name names = None) || bool_decide (n = chars "default") then Some n else default_name names.
Proof.
  destruct (bool_decide (n = chars "default")) eqn:E2.
  - rewrite orb_true_r. apply bool_decide_eq_true in E2 as ->. unfold default_name. rewrite decide_True; [done|]. apply elem_snoc. by right.
  - rewrite orb_false_r. apply bool_decide_eq_false in E2. destruct (bool_decide (default_name names = None)) eqn:E1.
    + apply bool_decide_eq_true, default_name_None in E1 as ->. unfold default_name. cbn [app]. rewrite decide_False; [done|]. rewrite elem_of_list_singleton. congruence.
    + apply bool_decide_eq_false in E1. rewrite default_name_None in E1. unfold default_name. destruct names as [|m names]; [done|].
      destruct (decide (chars "default" ∈ m :: names)) as [H|H]; [rewrite decide_True; [done|]; apply elem_snoc; by left|]. rewrite decide_False; [done|]. rewrite elem_snoc. intros [?|?]; congruence.
Qed.
Lemma current_gen_inside ls n : current_gen ls = Some n -> (forall before m after, ls = before ++ CGen m None :: after -> subtasks_in before <> 0) -> subtasks_in ls <> 0.
Proof.
  induction ls as [|x ls IH] using rev_ind; [done|]. rewrite current_gen_snoc, subtasks_in_snoc. intros H Hg.
  destruct (opens x) eqn:Ho; [lia|]. rewrite Nat.add_0_r. assert (subtasks_in ls <> 0 \/ current_gen ls = Some n) as [?|Hc].
  { destruct x as [m [?|]| | | | | | | | |]; try (by right). left. by apply (Hg ls m []). }
  - done.
  - apply IH; [done|]. intros b m a ->. apply (Hg b m (a ++ [x])). by rewrite <- app_assoc.
Qed.
(** Constraints *)
Definition Glob (ls : list cases_line) (c : constraint) : Prop := somewhere (fun b l => exists items, l = CConstraint items /\ ConstraintOf items c /\ subtasks_in b = 0) ls.
Definition Loc (ls : list cases_line) (c : constraint) : Prop := somewhere (fun b l => exists items, l = CConstraint items /\ ConstraintOf items c /\ subtasks_in b = subtasks_in ls) ls.
Lemma in_force_spec ls c : subtasks_in ls <> 0 -> InForce ls c <-> Glob ls c \/ Loc ls c.
Proof.
  intros Hne. unfold InForce, Glob, Loc, somewhere. split.
  - intros (b & items & a & Hls & Hc & [H|H]); [left|right]; exists b, (CConstraint items), a; (split; [done|]); exists items; (split_and!; [done..|]); [done|].
    rewrite Hls, subtasks_in_app, subtasks_in_cons. cbn. lia.
  - intros [(b & l & a & Hls & items & -> & Hc & H)|(b & l & a & Hls & items & -> & Hc & H)]; exists b, items, a; (split_and!; [done..|]); [by left|right].
    rewrite Hls, subtasks_in_app, subtasks_in_cons in H. cbn in H. lia.
Qed.
Lemma Glob_snoc ls x c : Glob (ls ++ [x]) c <-> Glob ls c \/ exists items, x = CConstraint items /\ ConstraintOf items c /\ subtasks_in ls = 0.
Proof. unfold Glob. by rewrite somewhere_snoc. Qed.
Lemma Loc_snoc ls x c : opens x = false -> Loc (ls ++ [x]) c <-> Loc ls c \/ exists items, x = CConstraint items /\ ConstraintOf items c.
Proof.
  intros Hx. unfold Loc. rewrite somewhere_snoc, subtasks_in_snoc, Hx, Nat.add_0_r. split; (intros [H|H]; [by left|right]); naive_solver.
Qed.
Lemma Loc_open ls x c : opens x = true -> ~ Loc (ls ++ [x]) c.
Proof.
  intros Hx. unfold Loc. rewrite somewhere_snoc, subtasks_in_snoc, Hx. intros [(b & l & a & Hls & _ & _ & _ & H)|(items & -> & _)]; [|done].
  rewrite Hls, subtasks_in_app in H. lia.
Qed.
(** The parts of a file *)
Lemma Through_snoc ls id part x : Through ls id part -> exists part', Through (ls ++ [x]) id part' /\ (part' = part /\ (opens x = true \/ id + 1 <> subtasks_in ls) \/ part = ls /\ part' = ls ++ [x] /\ opens x = false).
Proof.
  intros (rest & Hls & Hn & Hr). destruct rest as [|y rest].
  - rewrite app_nil_r in Hls. subst part. destruct (opens x) eqn:Hx.
    + exists ls. split; [|left; split; [done|by left]]. exists [x]. split_and!; [done..|]. right. destruct x; try done. by eexists _, _, [].
    + exists (ls ++ [x]). split; [|by right]. exists []. split_and!; [by rewrite app_nil_r| |by left]. rewrite subtasks_in_snoc, Hx. lia.
  - exists part. destruct Hr as [?|(n & d & r & Hr)]; [done|]. injection Hr as -> ->. split.
    + exists (CSubtask n d :: r ++ [x]). split_and!; [by rewrite Hls, <- app_assoc|done|]. right. by exists n, d, (r ++ [x]).
    + left. split; [done|]. right. rewrite Hls, subtasks_in_app, subtasks_in_cons. cbn. lia.
Qed.
Lemma Through_all ls id : id + 1 = subtasks_in ls -> Through ls id ls.
Proof. intros H. exists []. split_and!; [by rewrite app_nil_r|done|by left]. Qed.
Lemma test_not_open x : makes_test x = true -> opens x = false.
Proof. by destruct x. Qed.
Lemma somewhere_subtask_bound ls id : somewhere (fun before l => exists sc d, l = CSubtask sc d /\ subtasks_in before = id) ls -> id < subtasks_in ls.
Proof. intros (b & l & a & -> & sc & d & -> & <-). rewrite subtasks_in_app, subtasks_in_cons. cbn. lia. Qed.
Lemma prefix_bound ls b l a : ls = b ++ l :: a -> subtasks_in b <= subtasks_in ls.
Proof. intros ->. rewrite subtasks_in_app. lia. Qed.
Lemma prefix_tests ls b l a : ls = b ++ l :: a -> makes_test l = true -> testcases_in b < testcases_in ls.
Proof. intros -> H. unfold testcases_in. rewrite count_app. unfold count at 3. cbn [List.filter]. rewrite H. cbn. lia. Qed.

Section cases_run.
  Context (split : text -> option (list text)) (exists_file known : text -> bool) (get_output : nat -> output_gen) (file_name : text).
  Notation step := (cases_step split exists_file known get_output file_name).
  Notation run := (cases_run split exists_file known get_output file_name).
  Notation LineOk := (CasesLineOk split exists_file known file_name).
  Notation Validator := (ValidatorIs split file_name).
  Notation Input := (CasesInput split).

  Lemma validator_mono ls x id nm c v : Validator ls id nm c v -> Validator (ls ++ [x]) id nm c v.
  Proof. destruct c as [n|]; [|done]. cbn. intros (p & vars & args & vals & H & Hrest). exists p, vars, args, vals. split; [|done]. apply elem_snoc. by left. Qed.
  Definition ValFor (ls : list cases_line) (id : nat) (nm : option text) (v : validator) : Prop := exists part, Through ls id part /\ Validator ls id nm (current_val part) v.
  Lemma val_for_snoc ls x id nm v : (forall n, x <> CVal n None) \/ id + 1 <> subtasks_in ls -> ValFor ls id nm v -> ValFor (ls ++ [x]) id nm v.
  Proof.
    intros Hx (part & HT & Hv). destruct (Through_snoc _ _ _ x HT) as (part' & HT' & [[-> _]|(-> & -> & Ho)]).
    - exists part. split; [done|]. by apply validator_mono.
    - exists (ls ++ [x]). split; [done|]. apply validator_mono. rewrite current_val_snoc.
      destruct Hx as [Hx|Hx]; [|destruct HT as (? & _ & ? & _); done]. destruct x as [|n [d|]| | | | | | | |]; try done. by destruct (Hx n).
  Qed.

  (** [CasesTask] without dependencies *)
  Record G (ls : list cases_line) (f : gmap nat subtask) (tcs : gmap nat testcase_entry) : Prop := {
    g_ids : forall id, is_Some (f !! id) <-> id < subtasks_in ls;
    g_info : forall id s, f !! id = Some s -> se_id (st_info s) = id /\ se_default (st_info s) = false /\ se_deps (st_info s) = [] /\
      somewhere (fun before l => exists d, l = CSubtask (se_score (st_info s)) d /\ se_name (st_info s) = name_of d /\ subtasks_in before = id) ls;
    g_validator : forall id s, f !! id = Some s -> ValFor ls id (se_name (st_info s)) (se_validator (st_info s));
    g_owned : forall id s k, f !! id = Some s -> (k ∈ st_owned s <-> somewhere (fun before l => makes_test l = true /\ k = testcases_in before /\ subtasks_in before = id + 1) ls);
    g_sorted : forall id s, f !! id = Some s -> StronglySorted lt (st_owned s) /\ st_testcases s = st_owned s;
    g_testcases : forall k t, tcs !! k = Some t <-> somewhere (fun before l => exists i, Input before l i /\ k = testcases_in before /\ t = TestcaseEntry k i (get_output k)) ls }.
  Lemma G_nil : G [] ∅ ∅.
  Proof.
    split.
    - intros id. rewrite lookup_empty. split; [by intros []|]. unfold subtasks_in. cbn. lia.
    - intros id s H. by rewrite lookup_empty in H.
    - intros id s H. by rewrite lookup_empty in H.
    - intros id s k H. by rewrite lookup_empty in H.
    - intros id s H. by rewrite lookup_empty in H.
    - intros k t. rewrite lookup_empty. split; [done|]. by intros ?%somewhere_nil.
  Qed.
  Lemma input_tests before l i : makes_test l = false -> ~ Input before l i.
  Proof. intros H HI. destruct l; done. Qed.
  (** A line that changes nothing *)
  Lemma G_same ls f tcs x : G ls f tcs -> opens x = false -> makes_test x = false -> (forall n, x <> CVal n None) -> G (ls ++ [x]) f tcs.
  Proof.
    intros HG Ho Ht Hv. split.
    - intros id. rewrite subtasks_in_snoc, Ho, Nat.add_0_r. apply HG.
    - intros id s Hs. destruct (g_info _ _ _ HG id s Hs) as (? & ? & ? & ?). split_and!; [done..|]. apply somewhere_snoc. by left.
    - intros id s Hs. apply val_for_snoc; [by left|]. by apply HG.
    - intros id s k Hs. rewrite somewhere_snoc, Ht. rewrite (g_owned _ _ _ HG id s k Hs). split; [by left|]. by intros [?|[? _]].
    - apply HG.
    - intros k t. rewrite somewhere_snoc. rewrite (g_testcases _ _ _ HG k t). split; [by left|]. intros [?|(i & Hi & _)]; [done|]. by apply input_tests in Hi.
  Qed.
  (** A validator *)
  Lemma G_val ls f tcs id s n v : G ls f tcs -> f !! id = Some s -> id + 1 = subtasks_in ls -> Validator ls id (se_name (st_info s)) (Some n) v ->
    G (ls ++ [CVal n None]) (<[id := Subtask (SubtaskEntry (se_id (st_info s)) (se_name (st_info s)) (se_score (st_info s)) (se_default (st_info s)) v (se_deps (st_info s))) (st_testcases s) (st_owned s)]> f) tcs.
  Proof.
    intros HG Hs Hid Hv. set (x := CVal n None). set (s' := Subtask _ _ _). split.
    - intros j. rewrite subtasks_in_snoc. cbn. rewrite Nat.add_0_r. rewrite <- (g_ids _ _ _ HG j). destruct (decide (j = id)) as [->|]; [rewrite lookup_insert, Hs; done|by rewrite lookup_insert_ne].
    - intros j t Ht. apply lookup_insert_Some in Ht as [[<- <-]|[Hne Ht]].
      + destruct (g_info _ _ _ HG id s Hs) as (? & ? & ? & ?). cbn. split_and!; [done..|]. apply somewhere_snoc. by left.
      + destruct (g_info _ _ _ HG j t Ht) as (? & ? & ? & ?). split_and!; [done..|]. apply somewhere_snoc. by left.
    - intros j t Ht. apply lookup_insert_Some in Ht as [[<- <-]|[Hne Ht]].
      + cbn. exists (ls ++ [x]). split; [apply Through_all; rewrite subtasks_in_snoc; cbn; lia|]. rewrite current_val_snoc. apply (validator_mono _ _ _ _ (Some n)). exact Hv.
      + apply val_for_snoc; [right; lia|]. by apply HG.
    - intros j t k Ht. rewrite somewhere_snoc. apply lookup_insert_Some in Ht as [[<- <-]|[Hne Ht]].
      + cbn. rewrite (g_owned _ _ _ HG id s k Hs). split; [by left|]. by intros [?|[? _]].
      + rewrite (g_owned _ _ _ HG j t k Ht). split; [by left|]. by intros [?|[? _]].
    - intros j t Ht. apply lookup_insert_Some in Ht as [[<- <-]|[Hne Ht]]; [exact (g_sorted _ _ _ HG id s Hs)|by apply (g_sorted _ _ _ HG j)].
    - intros k t. rewrite somewhere_snoc. rewrite (g_testcases _ _ _ HG k t). split; [by left|]. intros [?|(i & Hi & _)]; [done|]. by apply input_tests in Hi.
  Qed.
  (** A subtask *)
  Lemma G_subtask ls f tcs score d v : G ls f tcs -> Validator ls (subtasks_in ls) (name_of d) (default_name (val_names ls)) v ->
    G (ls ++ [CSubtask score d]) (<[subtasks_in ls := Subtask (SubtaskEntry (subtasks_in ls) (name_of d) score false v []) [] []]> f) tcs.
  Proof.
    intros HG Hv. set (n := subtasks_in ls). assert (forall j t, f !! j = Some t -> j < n) as Hlt. { intros j t Ht. apply (g_ids _ _ _ HG). by eexists. } split.
    - intros j. rewrite subtasks_in_snoc. cbn. fold n. destruct (decide (j = n)) as [->|]; [rewrite lookup_insert; split; [lia|by eexists]|rewrite lookup_insert_ne by done; rewrite (g_ids _ _ _ HG j); fold n; lia].
    - intros j t Ht. apply lookup_insert_Some in Ht as [[<- <-]|[Hne Ht]].
      + cbn. split_and!; [done..|]. apply somewhere_snoc. right. by exists d.
      + destruct (g_info _ _ _ HG j t Ht) as (? & ? & ? & ?). split_and!; [done..|]. apply somewhere_snoc. by left.
    - intros j t Ht. apply lookup_insert_Some in Ht as [[<- <-]|[Hne Ht]].
      + cbn. exists (ls ++ [CSubtask score d]). split; [apply Through_all; by rewrite subtasks_in_snoc|]. rewrite current_val_snoc. by apply validator_mono.
      + apply val_for_snoc; [by left|]. by apply HG.
    - intros j t k Ht. rewrite somewhere_snoc. apply lookup_insert_Some in Ht as [[<- <-]|[Hne Ht]].
      + cbn. split; [by intros ?%elem_of_nil|]. intros [(b & l & a & Hb & _ & _ & Hn)|[? _]]; [|done]. apply prefix_bound in Hb. fold n in Hb. lia.
      + rewrite (g_owned _ _ _ HG j t k Ht). split; [by left|]. by intros [?|[? _]].
    - intros j t Ht. apply lookup_insert_Some in Ht as [[<- <-]|[Hne Ht]]; [split; [constructor|done]|by apply (g_sorted _ _ _ HG j)].
    - intros k t. rewrite somewhere_snoc. rewrite (g_testcases _ _ _ HG k t). split; [by left|]. intros [?|(i & Hi & _)]; [done|]. by apply input_tests in Hi.
  Qed.
  (** A testcase *)
  Lemma G_test ls f tcs id s x i : G ls f tcs -> f !! id = Some s -> id + 1 = subtasks_in ls -> makes_test x = true -> (forall i', Input ls x i' <-> i' = i) ->
    G (ls ++ [x]) (<[id := Subtask (st_info s) (st_testcases s ++ [testcases_in ls]) (st_owned s ++ [testcases_in ls])]> f)
      (<[testcases_in ls := TestcaseEntry (testcases_in ls) i (get_output (testcases_in ls))]> tcs).
  Proof.
    intros HG Hs Hid Hx Hi. pose proof (test_not_open _ Hx) as Ho. set (s' := Subtask _ _ _). set (k0 := testcases_in ls). split.
    - intros j. rewrite subtasks_in_snoc, Ho, Nat.add_0_r. rewrite <- (g_ids _ _ _ HG j). destruct (decide (j = id)) as [->|]; [rewrite lookup_insert, Hs; done|by rewrite lookup_insert_ne].
    - intros j t Ht. apply lookup_insert_Some in Ht as [[<- <-]|[Hne Ht]].
      + destruct (g_info _ _ _ HG id s Hs) as (? & ? & ? & ?). cbn. split_and!; [done..|]. apply somewhere_snoc. by left.
      + destruct (g_info _ _ _ HG j t Ht) as (? & ? & ? & ?). split_and!; [done..|]. apply somewhere_snoc. by left.
    - intros j t Ht. apply val_for_snoc; [left; by intros n ->|]. apply lookup_insert_Some in Ht as [[<- <-]|[Hne Ht]]; [by apply (g_validator _ _ _ HG id s Hs)|by apply HG].
    - intros j t k Ht. rewrite somewhere_snoc, Hx. apply lookup_insert_Some in Ht as [[<- <-]|[Hne Ht]].
      + cbn. rewrite elem_snoc, (g_owned _ _ _ HG id s k Hs). fold k0. split; (intros [?|H]; [by left|right]); [by rewrite H|tauto].
      + rewrite (g_owned _ _ _ HG j t k Ht). split; [by left|]. intros [?|(_ & _ & ?)]; [done|]. lia.
    - intros j t Ht. apply lookup_insert_Some in Ht as [[<- <-]|[Hne Ht]]; [|by apply (g_sorted _ _ _ HG j)]. destruct (g_sorted _ _ _ HG id s Hs) as [H1 H2]. cbn. split; [|by rewrite H2].
      apply sorted_snoc; [done|]. intros y Hy. apply (g_owned _ _ _ HG id s y Hs) in Hy as (b & l & a & Hb & Hl & -> & _). by apply (prefix_tests _ _ _ _ Hb).
    - intros k t. rewrite somewhere_snoc. fold k0. split.
      + intros [[<- <-]|[Hne H]]%lookup_insert_Some; [right; exists i; split_and!; [by apply Hi|done..]|left; by apply HG].
      + intros [H|(i' & ->%Hi & -> & ->)]; [|by rewrite lookup_insert]. rewrite lookup_insert_ne; [by apply HG|].
        destruct H as (b & l & a & Hb & i' & Hi' & -> & _). assert (makes_test l = true) as Hl by (destruct (makes_test l) eqn:E; [done|]; by apply input_tests in Hi'). pose proof (prefix_tests _ _ _ _ Hb Hl). unfold k0. lia.
  Qed.

  (** ** The state *)
  Definition GenDef (ls : list cases_line) (n p v : text) : Prop := CGen n (Some (p, v)) ∈ ls.
  Definition ValDef (ls : list cases_line) (n p v : text) : Prop := CVal n (Some (p, v)) ∈ ls.
  Record K (ls : list cases_line) (s : cases_state) (a : assembly) : Prop := {
    k_run : assemble_run a0 (cs_result s) = Some a;
    k_G : G ls (flush_last a) (as_testcases a);
    k_tc : cs_testcase_id s = testcases_in ls;
    k_st : cs_subtask_id s = subtasks_in ls;
    k_glob : forall c, c ∈ cs_constraints s <-> Glob ls c;
    k_loc : if decide (subtasks_in ls = 0) then True else exists extra, last (cs_st_constraints s) = Some extra /\ forall c, c ∈ extra <-> Loc ls c;
    k_gens : Managers split (GenDef ls) (cs_generators s);
    k_gsplit : forall n p v, GenDef ls n p v -> is_Some (split v);
    k_vals : Managers split (ValDef ls) (cs_validators s);
    k_vsplit : forall n p v, ValDef ls n p v -> is_Some (split v);
    k_dgen : cs_default_gen s = default_name (gen_names ls);
    k_dval : cs_default_val s = default_name (val_names ls);
    k_cur : cs_current s = current_gen ls;
    k_name : cs_subtask_name s = current_name ls;
    k_names : forall n id, cs_names s !! n = Some id <-> somewhere (fun before l => exists sc d, l = CSubtask sc d /\ name_of d = Some n /\ subtasks_in before = id) ls;
    k_deps : forall id d, d ∈ default [] (cs_deps s !! id) <-> somewhere (fun before l => exists ds, l = CDeps ds /\ subtasks_in before = id + 1 /\ d ∈ ds) ls;
    k_header : match last (cs_result s) with Some (ESubtask e) => after_subtask ls = true | _ => after_subtask ls = false end;
    k_last : match as_last a with Some s' => se_id (st_info s') + 1 = subtasks_in ls /\ se_name (st_info s') = current_name ls | None => subtasks_in ls = 0 end }.
  Lemma K_init : K [] cases_init a0.
  Proof.
    split; try done.
    - apply G_nil.
    - intros c. split; [by intros ?%elem_of_nil|by intros ?%somewhere_nil].
    - intros n mg. cbn. rewrite lookup_empty. split; [done|]. by intros (p & v & args & ?%elem_of_nil & _).
    - by intros n p v ?%elem_of_nil.
    - intros n mg. cbn. rewrite lookup_empty. split; [done|]. by intros (p & v & args & ?%elem_of_nil & _).
    - by intros n p v ?%elem_of_nil.
    - intros n id. cbn. rewrite lookup_empty. split; [done|]. by intros ?%somewhere_nil.
    - intros id d. cbn. rewrite lookup_empty. cbn. split; [by intros ?%elem_of_nil|by intros ?%somewhere_nil].
  Qed.
  Lemma K_last ls s a : K ls s a -> subtasks_in ls <> 0 -> exists s', as_last a = Some s' /\ flush_last a !! (subtasks_in ls - 1) = Some s' /\ se_id (st_info s') + 1 = subtasks_in ls /\ se_name (st_info s') = current_name ls.
  Proof.
    intros HK Hn. pose proof (k_last _ _ _ HK) as H. destruct (as_last a) as [s'|] eqn:E; [|done]. destruct H as [H1 H2]. exists s'. split_and!; [done| |done..].
    unfold flush_last. rewrite E. replace (subtasks_in ls - 1) with (se_id (st_info s')) by lia. apply lookup_insert.
  Qed.
  Lemma after_subtask_inside ls : after_subtask ls = true -> subtasks_in ls <> 0.
  Proof.
    induction ls as [|x ls IH] using rev_ind; [done|]. rewrite after_subtask_snoc, subtasks_in_snoc. destruct (opens x) eqn:Ho; [lia|]. destruct (makes_test x); [done|]. cbn. intros H. specialize (IH H). lia.
  Qed.
  (** Managers *)
  Lemma managers_None defs m n : Managers split defs m -> (forall n p v, defs n p v -> is_Some (split v)) -> m !! n = None <-> forall p v, ~ defs n p v.
  Proof.
    intros HM Hs. split.
    - intros H p v Hd. destruct (Hs _ _ _ Hd) as [args Ha]. rewrite (proj2 (HM n (Manager p args))) in H; [done|]. by exists p, v, args.
    - intros H. destruct (m !! n) as [mg|] eqn:E; [|done]. apply HM in E as (p & v & args & Hd & _). by destruct (H p v).
  Qed.
  Lemma managers_same (defs defs' : text -> text -> text -> Prop) m : (forall n p v, defs n p v <-> defs' n p v) -> Managers split defs m -> Managers split defs' m.
  Proof. intros H HM n mg. rewrite (HM n mg). split; intros (p & v & args & Hd & Hr); exists p, v, args; (split; [by apply H|done]). Qed.
  Lemma managers_insert (defs defs' : text -> text -> text -> Prop) m n0 p0 v0 args0 : Managers split defs m -> split v0 = Some args0 -> (forall p v, ~ defs n0 p v) ->
    (forall n p v, defs' n p v <-> defs n p v \/ n = n0 /\ p = p0 /\ v = v0) -> Managers split defs' (<[n0 := Manager p0 args0]> m).
  Proof.
    intros HM Hs Hno Hd n mg. rewrite lookup_insert_Some. split.
    - intros [[<- <-]|[Hne H]]; [exists p0, v0, args0; split_and!; [apply Hd; by right|done..]|]. apply HM in H as (p & v & args & ? & ? & ?). exists p, v, args. split_and!; [apply Hd; by left|done..].
    - intros (p & v & args & [H|(-> & -> & ->)]%Hd & Ha & ->).
      + right. split; [intros <-; by destruct (Hno p v)|]. apply HM. by exists p, v, args.
      + left. split; [done|]. congruence.
  Qed.
  Lemma define_spec name path vars dflt m r : define_manager split exists_file known name path vars dflt m = Some r <->
    exists_file path = true /\ known path = true /\ m !! name = None /\ exists args, split vars = Some args /\
    r = (if bool_decide (dflt = None) || bool_decide (name = chars "default") then Some name else dflt, <[name := Manager path args]> m).
  Proof.
    unfold define_manager. destruct (exists_file path); [|cbn; naive_solver]. destruct (known path); [|cbn; naive_solver]. cbn [negb].
    split.
    - intros (args & Ha & H)%bind_Some'. destruct (m !! name); [done|]. split_and!; [done..|]. exists args. split; [done|]. by injection H as <-.
    - intros (_ & _ & Hm & args & Ha & ->). rewrite Ha. cbn [mbind option_bind]. by rewrite Hm.
  Qed.

  (** ** The lines that do not make a subtask or a testcase and do not set the validator *)
  Lemma K_same ls s a x s' : K ls s a -> opens x = false -> makes_test x = false -> (forall n, x <> CVal n None) ->
    cs_result s' = cs_result s -> cs_testcase_id s' = cs_testcase_id s -> cs_subtask_id s' = cs_subtask_id s -> cs_subtask_name s' = cs_subtask_name s -> cs_names s' = cs_names s ->
    (forall c, c ∈ cs_constraints s' <-> c ∈ cs_constraints s \/ exists items, x = CConstraint items /\ ConstraintOf items c /\ subtasks_in ls = 0) ->
    (forall extra, subtasks_in ls <> 0 -> last (cs_st_constraints s) = Some extra ->
       exists extra', last (cs_st_constraints s') = Some extra' /\ forall c, c ∈ extra' <-> c ∈ extra \/ exists items, x = CConstraint items /\ ConstraintOf items c) ->
    Managers split (GenDef (ls ++ [x])) (cs_generators s') -> (forall n p v, GenDef (ls ++ [x]) n p v -> is_Some (split v)) ->
    Managers split (ValDef (ls ++ [x])) (cs_validators s') -> (forall n p v, ValDef (ls ++ [x]) n p v -> is_Some (split v)) ->
    cs_default_gen s' = default_name (gen_names (ls ++ [x])) -> cs_default_val s' = default_name (val_names (ls ++ [x])) -> cs_current s' = current_gen (ls ++ [x]) ->
    (forall id d, d ∈ default [] (cs_deps s' !! id) <-> d ∈ default [] (cs_deps s !! id) \/ exists ds, x = CDeps ds /\ subtasks_in ls = id + 1 /\ d ∈ ds) ->
    K (ls ++ [x]) s' a.
  Proof.
    intros HK Ho Ht Hv Hr Htc Hst Hnm Hnames Hc Hl Hg Hgs Hvv Hvs Hdg Hdv Hcur Hd.
    assert (subtasks_in (ls ++ [x]) = subtasks_in ls) as Hn by (rewrite subtasks_in_snoc, Ho; lia).
    assert (current_name (ls ++ [x]) = current_name ls) as Hcn by (rewrite current_name_snoc; by destruct x).
    assert (after_subtask (ls ++ [x]) = after_subtask ls) as Ha by (by rewrite after_subtask_snoc, Ho, Ht).
    split; try done; rewrite ?Hn, ?Hcn, ?Hr, ?Ha.
    - apply HK.
    - apply G_same; [apply HK|done..].
    - rewrite Htc, (k_tc _ _ _ HK), testcases_in_snoc, Ht. lia.
    - rewrite Hst. apply HK.
    - intros c. rewrite Hc, Glob_snoc. by rewrite (k_glob _ _ _ HK c).
    - destruct (decide _) as [|Hne]; [done|]. pose proof (k_loc _ _ _ HK) as H. rewrite decide_False in H by done. destruct H as (extra & He & Hex).
      destruct (Hl extra Hne He) as (extra' & He' & Hex'). exists extra'. split; [done|]. intros c. rewrite Loc_snoc by done. rewrite <- Hex. apply Hex'.
    - rewrite Hnm. apply HK.
    - intros n id. rewrite Hnames, somewhere_snoc, (k_names _ _ _ HK). split; [by left|]. intros [?|(sc & d & -> & _)]; done.
    - intros id d. rewrite Hd, somewhere_snoc. by rewrite (k_deps _ _ _ HK).
    - apply HK.
    - apply HK.
  Qed.
  Lemma gens_kept ls s a x : K ls s a -> (forall n p v, x <> CGen n (Some (p, v))) ->
    Managers split (GenDef (ls ++ [x])) (cs_generators s) /\ (forall n p v, GenDef (ls ++ [x]) n p v -> is_Some (split v)) /\ cs_default_gen s = default_name (gen_names (ls ++ [x])).
  Proof.
    intros HK Hx. assert (forall n p v, GenDef ls n p v <-> GenDef (ls ++ [x]) n p v) as H.
    { intros n p v. unfold GenDef. rewrite elem_snoc. split; [by left|]. intros [?|H]; [done|]. by destruct (Hx n p v). }
    split_and!; [by apply (managers_same (GenDef ls)); [|apply HK]|intros n p v Hd; apply H in Hd; by apply (k_gsplit _ _ _ HK n p v)|].
    rewrite gen_names_snoc, (k_dgen _ _ _ HK). destruct x as [n [[p v]|]| | | | | | | | |]; rewrite ?app_nil_r; try done. by destruct (Hx n p v).
  Qed.
  Lemma vals_kept ls s a x : K ls s a -> (forall n p v, x <> CVal n (Some (p, v))) ->
    Managers split (ValDef (ls ++ [x])) (cs_validators s) /\ (forall n p v, ValDef (ls ++ [x]) n p v -> is_Some (split v)) /\ cs_default_val s = default_name (val_names (ls ++ [x])).
  Proof.
    intros HK Hx. assert (forall n p v, ValDef ls n p v <-> ValDef (ls ++ [x]) n p v) as H.
    { intros n p v. unfold ValDef. rewrite elem_snoc. split; [by left|]. intros [?|H]; [done|]. by destruct (Hx n p v). }
    split_and!; [by apply (managers_same (ValDef ls)); [|apply HK]|intros n p v Hd; apply H in Hd; by apply (k_vsplit _ _ _ HK n p v)|].
    rewrite val_names_snoc, (k_dval _ _ _ HK). destruct x as [|n [[p v]|]| | | | | | | |]; rewrite ?app_nil_r; try done. by destruct (Hx n p v).
  Qed.
  Lemma constraints_kept s x (P : Prop) : (forall items, x <> CConstraint items) -> forall c, c ∈ cs_constraints s <-> c ∈ cs_constraints s \/ exists items, x = CConstraint items /\ ConstraintOf items c /\ P.
  Proof. intros Hx c. split; [by left|]. intros [?|(items & ? & _)]; [done|]. by destruct (Hx items). Qed.
  Lemma extra_kept s x (P : Prop) : (forall items, x <> CConstraint items) -> forall extra, P -> last (cs_st_constraints s) = Some extra ->
    exists extra', last (cs_st_constraints s) = Some extra' /\ forall c, c ∈ extra' <-> c ∈ extra \/ exists items, x = CConstraint items /\ ConstraintOf items c.
  Proof. intros Hx extra _ H. exists extra. split; [done|]. intros c. split; [by left|]. intros [?|(items & ? & _)]; [done|]. by destruct (Hx items). Qed.
  Lemma deps_kept s x (P : nat -> Prop) : (forall ds, x <> CDeps ds) -> forall id d, d ∈ default [] (cs_deps s !! id) <-> d ∈ default [] (cs_deps s !! id) \/ exists ds, x = CDeps ds /\ P id /\ d ∈ ds.
  Proof. intros Hx id d. split; [by left|]. intros [?|(ds & ? & _)]; [done|]. by destruct (Hx ds). Qed.
  Lemma gen_free ls s a n : K ls s a -> cs_generators s !! n = None <-> n ∉ gen_names ls.
  Proof. intros HK. rewrite (managers_None _ _ n (k_gens _ _ _ HK) (k_gsplit _ _ _ HK)), gen_names_elem. unfold GenDef. naive_solver. Qed.
  Lemma val_free ls s a n : K ls s a -> cs_validators s !! n = None <-> n ∉ val_names ls.
  Proof. intros HK. rewrite (managers_None _ _ n (k_vals _ _ _ HK) (k_vsplit _ _ _ HK)), val_names_elem. unfold ValDef. naive_solver. Qed.
  Notation StepOk ls s x := ((LineOk ls x -> is_Some (step s x)) /\ (forall s', step s x = Some s' -> LineOk ls x /\ exists a', K (ls ++ [x]) s' a')).
  Lemma step_inert ls s a x : K ls s a -> x = CComment \/ x = CEmpty -> StepOk ls s x.
  Proof.
    intros HK Hx. assert (step s x = Some s /\ LineOk ls x) as [-> Hok] by (by destruct Hx as [-> | ->]).
    split; [by eexists|]. intros s' [= <-]. split; [done|]. exists a.
    destruct (gens_kept ls s a x HK) as (? & ? & ?); [by destruct Hx as [-> | ->]|]. destruct (vals_kept ls s a x HK) as (? & ? & ?); [by destruct Hx as [-> | ->]|].
    apply (K_same ls s); try done; try (by destruct Hx as [-> | ->]).
    - apply (constraints_kept s x). by destruct Hx as [-> | ->].
    - apply (extra_kept s x). by destruct Hx as [-> | ->].
    - rewrite current_gen_snoc, (k_cur _ _ _ HK). by destruct Hx as [-> | ->].
    - apply (deps_kept s x (fun id => subtasks_in ls = id + 1)). by destruct Hx as [-> | ->].
  Qed.
  Lemma step_gen ls s a n : K ls s a -> StepOk ls s (CGen n None).
  Proof.
    intros HK. cbn [cases_step CasesLineOk]. rewrite (k_st _ _ _ HK). set (x := CGen n None).
    destruct (decide (subtasks_in ls = 0)) as [H0|H0]; [split; [by intros [? _]|done]|].
    destruct (cs_generators s !! n) as [mg|] eqn:E.
    2:{ split; [|done]. intros [_ H]. by apply (gen_free ls s a n HK) in E. }
    split; [by eexists|]. intros s' [= <-]. split.
    { split; [done|]. destruct (decide (n ∈ gen_names ls)) as [|Hn]; [done|]. apply (gen_free ls s a n HK) in Hn. congruence. }
    exists a. destruct (gens_kept ls s a x HK) as (? & ? & ?); [done|]. destruct (vals_kept ls s a x HK) as (? & ? & ?); [done|].
    apply (K_same ls s); try done.
    - cbn. symmetry. apply (k_st _ _ _ HK).
    - by apply (constraints_kept s x).
    - by apply (extra_kept s x).
    - by rewrite current_gen_snoc.
    - by apply (deps_kept s x (fun id => subtasks_in ls = id + 1)).
  Qed.
  Lemma step_gen_def ls s a n p v : K ls s a -> StepOk ls s (CGen n (Some (p, v))).
  Proof.
    intros HK. cbn [cases_step CasesLineOk]. set (x := CGen n (Some (p, v))). split.
    - intros (H1 & H2 & [args H3] & H4). apply (gen_free ls s a n HK) in H4. rewrite (proj2 (define_spec n p v _ _ _) (conj H1 (conj H2 (conj H4 (ex_intro _ args (conj H3 eq_refl)))))). by eexists.
    - intros s' ([d m] & Hd & H)%bind_Some'. injection H as <-. apply define_spec in Hd as (H1 & H2 & H3 & args & H4 & H5). injection H5 as -> ->.
      pose proof (proj1 (gen_free ls s a n HK) H3) as Hfree. split; [split_and!; [done..|by eexists|done]|].
      exists a. destruct (vals_kept ls s a x HK) as (? & ? & ?); [done|].
      assert (forall m q w, GenDef (ls ++ [x]) m q w <-> GenDef ls m q w \/ m = n /\ q = p /\ w = v) as Hdef.
      { intros m q w. unfold GenDef. rewrite elem_snoc. split; (intros [?|H']; [by left|right]); [by injection H' as -> -> ->|by destruct H' as (-> & -> & ->)]. }
      apply (K_same ls s); try done.
      + by apply (constraints_kept s x).
      + by apply (extra_kept s x).
      + cbn. apply (managers_insert (GenDef ls) _ _ n p v args (k_gens _ _ _ HK)); [done| |done]. intros q w Hq. apply Hfree, gen_names_elem. by exists q, w.
      + intros m q w [Hq|(-> & -> & ->)]%Hdef; [by apply (k_gsplit _ _ _ HK m q w)|by eexists].
      + replace (gen_names (ls ++ [x])) with (gen_names ls ++ [n]) by (by rewrite gen_names_snoc). rewrite default_name_snoc. cbn. by rewrite (k_dgen _ _ _ HK).
      + cbn. rewrite current_gen_snoc. apply HK.
      + by apply (deps_kept s x (fun id => subtasks_in ls = id + 1)).
  Qed.
  Lemma step_val_def ls s a n p v : K ls s a -> StepOk ls s (CVal n (Some (p, v))).
  Proof.
    intros HK. cbn [cases_step CasesLineOk]. set (x := CVal n (Some (p, v))). split.
    - intros (H1 & H2 & [args H3] & H4). apply (val_free ls s a n HK) in H4. rewrite (proj2 (define_spec n p v _ _ _) (conj H1 (conj H2 (conj H4 (ex_intro _ args (conj H3 eq_refl)))))). by eexists.
    - intros s' ([d m] & Hd & H)%bind_Some'. injection H as <-. apply define_spec in Hd as (H1 & H2 & H3 & args & H4 & H5). injection H5 as -> ->.
      pose proof (proj1 (val_free ls s a n HK) H3) as Hfree. split; [split_and!; [done..|by eexists|done]|].
      exists a. destruct (gens_kept ls s a x HK) as (? & ? & ?); [done|].
      assert (forall m q w, ValDef (ls ++ [x]) m q w <-> ValDef ls m q w \/ m = n /\ q = p /\ w = v) as Hdef.
      { intros m q w. unfold ValDef. rewrite elem_snoc. split; (intros [?|H']; [by left|right]); [by injection H' as -> -> ->|by destruct H' as (-> & -> & ->)]. }
      apply (K_same ls s); try done.
      + by apply (constraints_kept s x).
      + by apply (extra_kept s x).
      + cbn. apply (managers_insert (ValDef ls) _ _ n p v args (k_vals _ _ _ HK)); [done| |done]. intros q w Hq. apply Hfree, val_names_elem. by exists q, w.
      + intros m q w [Hq|(-> & -> & ->)]%Hdef; [by apply (k_vsplit _ _ _ HK m q w)|by eexists].
      + replace (val_names (ls ++ [x])) with (val_names ls ++ [n]) by (by rewrite val_names_snoc). rewrite default_name_snoc. cbn. by rewrite (k_dval _ _ _ HK).
      + cbn. rewrite current_gen_snoc. apply HK.
      + by apply (deps_kept s x (fun id => subtasks_in ls = id + 1)).
  Qed.
  Lemma step_constraint ls s a items : K ls s a -> Alt items -> 1 < length items -> StepOk ls s (CConstraint items).
  Proof.
    intros HK HA Hlen. cbn [cases_step CasesLineOk]. set (x := CConstraint items). split.
    - intros [c Hc]. apply (parse_constraint_spec items c HA Hlen) in Hc. rewrite Hc. cbn [mbind option_bind]. destruct (decide _); by eexists.
    - intros s' (c & Hc & H)%bind_Some'. apply (parse_constraint_spec items c HA Hlen) in Hc. split; [by exists c|]. exists a.
      assert (forall c', (exists items', x = CConstraint items' /\ ConstraintOf items' c') <-> c' = c) as Honly.
      { intros c'. split; [intros (items' & [= <-] & Hc'); by apply (constraint_fun items)|]. intros ->. by exists items. }
      destruct (gens_kept ls s a x HK) as (? & ? & ?); [done|]. destruct (vals_kept ls s a x HK) as (? & ? & ?); [done|].
      destruct (decide (cs_subtask_id s = 0)) as [Hz|Hz]; injection H as <-; rewrite (k_st _ _ _ HK) in Hz; (apply (K_same ls s); [done..| | |done|done|done|done|done|done| |]); cbn [cs_constraints cs_st_constraints].
      + intros c'. rewrite elem_snoc. split; (intros [?|H']; [by left|right]); [exists items; by subst|apply Honly; naive_solver].
      + intros extra Hne. done.
      + cbn. rewrite current_gen_snoc. apply HK.
      + by apply (deps_kept s x (fun id => subtasks_in ls = id + 1)).
      + intros c'. split; [by left|]. intros [?|(? & _ & _ & ?)]; done.
      + intros extra _ (l' & He)%last_Some_app. rewrite He, map_last_snoc, last_snoc. eexists. split; [done|]. intros c'. rewrite elem_snoc, Honly. done.
      + cbn. rewrite current_gen_snoc. apply HK.
      + by apply (deps_kept s x (fun id => subtasks_in ls = id + 1)).
  Qed.

  (** ** The last subtask *)
  Lemma K_header ls s a : K ls s a -> after_subtask ls = true -> exists es e a1, cs_result s = es ++ [ESubtask e] /\ assemble_run a0 es = Some a1 /\
    a = Assembly (flush_last a1) (as_testcases a1) (Some (Subtask e [] [])) /\ se_id e + 1 = subtasks_in ls /\ se_name e = current_name ls.
  Proof.
    intros HK Hh. pose proof (k_header _ _ _ HK) as H. destruct (last (cs_result s)) as [[e|t]|] eqn:E; [|congruence..].
    apply last_Some_app in E as [es E]. pose proof (k_run _ _ _ HK) as Hr. rewrite E, assemble_snoc in Hr. destruct (assemble_run a0 es) as [a1|] eqn:E1; [|done]. cbn in Hr. injection Hr as <-.
    exists es, e, a1. pose proof (k_last _ _ _ HK) as Hl. cbn in Hl. by destruct Hl.
  Qed.
  Lemma header_last ls s a : K ls s a -> after_subtask ls = true <-> exists e, last (cs_result s) = Some (ESubtask e).
  Proof.
    intros HK. pose proof (k_header _ _ _ HK) as H. destruct (last (cs_result s)) as [[e|t]|] eqn:E; rewrite H.
    - split; [by exists e|done].
    - split; [done|]. by intros [e ?].
    - split; [done|]. by intros [e ?].
  Qed.
  Lemma step_val ls s a n : K ls s a -> StepOk ls s (CVal n None).
  Proof.
    intros HK. cbn [cases_step CasesLineOk]. set (x := CVal n None).
    destruct (decide (cs_subtask_id s = 0)) as [H0|H0]; rewrite (k_st _ _ _ HK) in H0.
    { split; [|done]. intros [H _]. by apply after_subtask_inside in H. }
    assert (forall v, find_validator s (Some n) (auto_variables file_name (cs_subtask_id s) (cs_subtask_name s)) = Some v <-> Validator ls (subtasks_in ls - 1) (current_name ls) (Some n) v) as Hfind.
    { intros v. rewrite (k_st _ _ _ HK), (k_name _ _ _ HK). replace (subtasks_in ls) with (subtasks_in ls - 1 + 1) at 1 by lia. apply (find_validator_spec split). exact (k_vals _ _ _ HK). }
    split.
    - intros [Hh [v Hv]]. apply Hfind in Hv. rewrite Hv. cbn [mbind option_bind]. apply (header_last ls s a HK) in Hh as [e He]. rewrite He. by eexists.
    - intros s' (v & Hv & H)%bind_Some'. apply Hfind in Hv. destruct (last (cs_result s)) as [[e|t]|] eqn:El; try done. injection H as <-.
      assert (after_subtask ls = true) as Hh by (apply (header_last ls s a HK); by exists e). split; [split; [done|by exists v]|].
      destruct (K_header ls s a HK Hh) as (es & e' & a1 & He & Ha1 & Ha & Hid & Hname). assert (e' = e) as -> by (rewrite He, last_snoc in El; congruence). clear El.
      pose (e' := SubtaskEntry (se_id e) (se_name e) (se_score e) (se_default e) v (se_deps e)).
      exists (Assembly (flush_last a1) (as_testcases a1) (Some (Subtask e' [] []))).
      assert (flush_last a !! (subtasks_in ls - 1) = Some (Subtask e [] [])) as Hlook.
      { rewrite Ha. unfold flush_last at 1. cbn. replace (subtasks_in ls - 1) with (se_id e) by lia. apply lookup_insert. }
      assert (flush_last (Assembly (flush_last a1) (as_testcases a1) (Some (Subtask e' [] []))) = <[subtasks_in ls - 1 := Subtask e' [] []]> (flush_last a)) as Hflush.
      { rewrite Ha. unfold flush_last at 1 3. cbn. replace (subtasks_in ls - 1) with (se_id e) by lia. by rewrite insert_insert. }
      destruct (gens_kept ls s a x HK) as (G1 & G2 & G3); [done|]. destruct (vals_kept ls s a x HK) as (V1 & V2 & V3); [done|].
      assert (subtasks_in (ls ++ [x]) = subtasks_in ls) as Hn by (rewrite subtasks_in_snoc; cbn; lia).
      split; cbn [set_result cs_result cs_constraints cs_st_constraints cs_generators cs_validators cs_default_gen cs_default_val cs_current cs_subtask_id cs_subtask_name cs_names cs_deps cs_testcase_id as_testcases as_last st_info]; rewrite ?Hn; try done.
      + rewrite He, map_last_snoc, assemble_snoc, Ha1. done.
      + rewrite Hflush. pose proof (G_val ls (flush_last a) (as_testcases a) (subtasks_in ls - 1) (Subtask e [] []) n v (k_G _ _ _ HK) Hlook) as HG. cbn in HG. rewrite Hname in HG. specialize (HG ltac:(lia) Hv).
        rewrite Ha in HG at 2. cbn in HG. unfold e'. rewrite Hname. exact HG.
      + rewrite testcases_in_snoc, (k_tc _ _ _ HK). cbn. lia.
      + apply HK.
      + intros c. rewrite Glob_snoc, (k_glob _ _ _ HK). split; [by left|]. by intros [?|(? & ? & _)].
      + rewrite decide_False by done. pose proof (k_loc _ _ _ HK) as H. rewrite decide_False in H by done. destruct H as (extra & H1 & H2). exists extra. split; [done|].
        intros c. rewrite Loc_snoc by done. rewrite H2. split; [by left|]. by intros [?|(? & ? & _)].
      + rewrite current_gen_snoc. apply HK.
      + rewrite current_name_snoc. apply HK.
      + intros m id. rewrite somewhere_snoc, (k_names _ _ _ HK). split; [by left|]. by intros [?|(? & ? & ? & _)].
      + intros id d. rewrite somewhere_snoc, (k_deps _ _ _ HK). split; [by left|]. by intros [?|(? & ? & _)].
      + rewrite He, map_last_snoc, last_snoc, after_subtask_snoc. cbn. done.
      + cbn. rewrite current_name_snoc. done.
  Qed.
  Lemma step_deps ls s a ds : K ls s a -> StepOk ls s (CDeps ds).
  Proof.
    intros HK. cbn [cases_step CasesLineOk]. set (x := CDeps ds).
    destruct (gens_kept ls s a x HK) as (G1 & G2 & G3); [done|]. destruct (vals_kept ls s a x HK) as (V1 & V2 & V3); [done|].
    assert (cs_current s = current_gen (ls ++ [x])) as Hcur by (rewrite current_gen_snoc; apply HK).
    destruct ds as [|d0 ds].
    { split; [by eexists|]. intros s' [= <-]. split; [by left|]. exists a. apply (K_same ls s); [done..| | |done|done|done|done|done|done|done|].
      - by apply (constraints_kept s x).
      - by apply (extra_kept s x).
      - intros id d. split; [by left|]. intros [?|(ds & [= <-] & _ & ?%elem_of_nil)]; done. }
    pose proof (k_header _ _ _ HK) as Hh. destruct (last (cs_result s)) as [[e|t]|] eqn:El; [|split; [intros [?|?]; congruence|done]..].
    split; [by eexists|]. intros s' [= <-]. split; [by right|]. exists a.
    destruct (K_header ls s a HK Hh) as (es & e' & a1 & He & Ha1 & Ha & Hid & Hname). assert (e' = e) as -> by (rewrite He, last_snoc in El; congruence).
    apply (K_same ls s); [done..| | |done|done|done|done|done|done|done|]; cbn [cs_constraints cs_st_constraints cs_deps].
    - by apply (constraints_kept s x).
    - by apply (extra_kept s x).
    - intros id d. destruct (decide (id = se_id e)) as [->|Hne].
      + rewrite lookup_insert. cbn [default from_option]. unfold Datatypes.id. rewrite elem_of_app. split; (intros [?|H]; [by left|right]); [by exists (d0 :: ds)|by destruct H as (ds' & [= <-] & _ & H)].
      + rewrite lookup_insert_ne by done. split; [by left|]. intros [?|(ds' & _ & H & _)]; [done|lia].
  Qed.
  Lemma step_subtask ls s a score d : K ls s a -> StepOk ls s (CSubtask score d).
  Proof.
    intros HK. cbn [cases_step CasesLineOk]. set (x := CSubtask score d). change ((fun d => List.filter (fun c => negb (is_blank c)) d) <$> d) with (name_of d).
    assert (forall v, find_validator s (cs_default_val s) (auto_variables file_name (cs_subtask_id s + 1) (name_of d)) = Some v <-> Validator ls (subtasks_in ls) (name_of d) (default_name (val_names ls)) v) as Hfind.
    { intros v. rewrite (k_st _ _ _ HK), (k_dval _ _ _ HK). apply (find_validator_spec split). exact (k_vals _ _ _ HK). }
    assert (is_Some (n ← name_of d; cs_names s !! n) <-> exists n, name_of d = Some n /\ somewhere (fun _ l => exists sc d', l = CSubtask sc d' /\ name_of d' = Some n) ls) as Hdup.
    { split.
      - intros [id H]. apply bind_Some' in H as (n & Hn & H). exists n. split; [done|]. apply (k_names _ _ _ HK) in H. eapply somewhere_impl; [|exact H]. intros b l af _ (sc & d' & -> & ? & _). by exists sc, d'.
      - intros (n & -> & (b & l & af & Hb & sc & d' & -> & Hd')). cbn [mbind option_bind]. exists (subtasks_in b). apply (k_names _ _ _ HK). exists b, (CSubtask sc d'), af. split; [done|]. by exists sc, d'. }
    destruct (bool_decide (is_Some (n ← name_of d; cs_names s !! n))) eqn:Eb.
    { apply bool_decide_eq_true, Hdup in Eb as (n & Hn & H). split; [|done]. intros [H1 _]. by destruct (H1 n Hn). }
    apply bool_decide_eq_false in Eb. split.
    - intros [_ [v Hv]]. apply Hfind in Hv. rewrite Hv. by eexists.
    - intros s' (v & Hv & H)%bind_Some'. apply Hfind in Hv. injection H as <-. split.
      { split; [|by exists v]. intros n Hn H. apply Eb, Hdup. by exists n. }
      rewrite (k_st _ _ _ HK). set (e := SubtaskEntry _ _ _ _ _ _).
      exists (Assembly (flush_last a) (as_testcases a) (Some (Subtask e [] []))).
      destruct (gens_kept ls s a x HK) as (G1 & G2 & G3); [done|]. destruct (vals_kept ls s a x HK) as (V1 & V2 & V3); [done|].
      assert (subtasks_in (ls ++ [x]) = subtasks_in ls + 1) as Hn by (by rewrite subtasks_in_snoc).
      split; cbn [cs_result cs_constraints cs_st_constraints cs_generators cs_validators cs_default_gen cs_default_val cs_current cs_subtask_id cs_subtask_name cs_names cs_deps cs_testcase_id as_testcases as_last st_info]; rewrite ?Hn; try done.
      + rewrite assemble_snoc, (k_run _ _ _ HK). done.
      + unfold flush_last at 1. cbn. apply G_subtask; [apply HK|done].
      + rewrite testcases_in_snoc, (k_tc _ _ _ HK). cbn. lia.
      + intros c. rewrite Glob_snoc, (k_glob _ _ _ HK). split; [by left|]. by intros [?|(? & ? & _)].
      + rewrite decide_False by lia. exists []. split; [by rewrite last_snoc|]. intros c. split; [by intros ?%elem_of_nil|]. intros H. by apply (Loc_open ls x c) in H.
      + rewrite current_gen_snoc. cbn. by rewrite (k_dgen _ _ _ HK).
      + by rewrite current_name_snoc.
      + intros n id. rewrite somewhere_snoc. split.
        * intros H. destruct (name_of d) as [m|] eqn:Em.
          -- apply lookup_insert_Some in H as [[<- <-]|[_ H]]; [right; by exists score, d|left; by apply (k_names _ _ _ HK)].
          -- left. by apply (k_names _ _ _ HK).
        * intros [H|(sc & d' & Hx & Hn' & <-)].
          -- apply (k_names _ _ _ HK) in H. destruct (name_of d) as [m|] eqn:Em; [|done]. rewrite lookup_insert_ne; [done|]. intros <-. apply Eb. cbn. by eexists.
          -- injection Hx as <- <-. rewrite Hn'. by rewrite lookup_insert.
      + intros id dd. rewrite somewhere_snoc, (k_deps _ _ _ HK). split; [by left|]. by intros [?|(? & ? & _)].
      + rewrite last_snoc, after_subtask_snoc. done.
      + rewrite current_name_snoc. done.
  Qed.
  (** ** Testcases *)
  Lemma K_test ls s a x i : K ls s a -> subtasks_in ls <> 0 -> makes_test x = true -> (forall i', Input ls x i' <-> i' = i) -> exists a', K (ls ++ [x]) (push_testcase get_output i s) a'.
  Proof.
    intros HK H0 Hx Hi. destruct (K_last ls s a HK H0) as (s1 & Hl & Hlook & Hid & Hname). pose proof (test_not_open _ Hx) as Ho.
    set (k := testcases_in ls). pose (new := Subtask (st_info s1) (st_testcases s1 ++ [k]) (st_owned s1 ++ [k])).
    exists (Assembly (as_subtasks a) (<[k := TestcaseEntry k i (get_output k)]> (as_testcases a)) (Some new)).
    assert (flush_last (Assembly (as_subtasks a) (<[k := TestcaseEntry k i (get_output k)]> (as_testcases a)) (Some new)) = <[subtasks_in ls - 1 := new]> (flush_last a)) as Hflush.
    { unfold flush_last. cbn. rewrite Hl. replace (subtasks_in ls - 1) with (se_id (st_info s1)) by lia. by rewrite insert_insert. }
    destruct (gens_kept ls s a x HK) as (G1 & G2 & G3); [by destruct x|]. destruct (vals_kept ls s a x HK) as (V1 & V2 & V3); [by destruct x|].
    assert (subtasks_in (ls ++ [x]) = subtasks_in ls) as Hn by (rewrite subtasks_in_snoc, Ho; lia).
    split; cbn [push_testcase cs_result cs_constraints cs_st_constraints cs_generators cs_validators cs_default_gen cs_default_val cs_current cs_subtask_id cs_subtask_name cs_names cs_deps cs_testcase_id as_testcases as_last st_info]; rewrite ?Hn, ?(k_tc _ _ _ HK); try done.
    - rewrite assemble_snoc, (k_run _ _ _ HK). cbn. rewrite Hl. done.
    - rewrite Hflush. apply (G_test ls _ _ (subtasks_in ls - 1) s1 x i); [apply HK|done|lia|done|done].
    - rewrite testcases_in_snoc, Hx. done.
    - apply HK.
    - intros c. rewrite Glob_snoc, (k_glob _ _ _ HK). split; [by left|]. intros [?|(? & -> & _)]; done.
    - rewrite decide_False by done. pose proof (k_loc _ _ _ HK) as H. rewrite decide_False in H by done. destruct H as (extra & H1 & H2). exists extra. split; [done|].
      intros c. rewrite Loc_snoc by done. rewrite H2. split; [by left|]. intros [?|(? & -> & _)]; done.
    - rewrite current_gen_snoc, (k_cur _ _ _ HK). by destruct x.
    - rewrite current_name_snoc, (k_name _ _ _ HK). by destruct x.
    - intros m id. rewrite somewhere_snoc, (k_names _ _ _ HK). split; [by left|]. intros [?|(? & ? & -> & _)]; done.
    - intros id d. rewrite somewhere_snoc, (k_deps _ _ _ HK). split; [by left|]. intros [?|(? & -> & _)]; done.
    - rewrite last_snoc, after_subtask_snoc, Ho, Hx. done.
    - cbn. rewrite current_name_snoc. split; [done|]. by destruct x.
  Qed.
  Lemma step_copy ls s a p : K ls s a -> StepOk ls s (CCopy p).
  Proof.
    intros HK. cbn [cases_step CasesLineOk]. destruct (decide (cs_subtask_id s = 0)) as [H0|H0]; rewrite (k_st _ _ _ HK) in H0; [split; [by intros [? _]|done]|].
    destruct (exists_file p) eqn:E; [|split; [by intros [_ ?]|done]]. cbn [negb]. split; [by eexists|]. intros s' [= <-]. split; [done|]. by apply (K_test ls s a (CCopy p)).
  Qed.
  Lemma gen_unique ls s a n p v p' v' : K ls s a -> CGen n (Some (p, v)) ∈ ls -> CGen n (Some (p', v')) ∈ ls -> p = p' /\ split v = split v'.
  Proof.
    intros HK H1 H2. destruct (k_gsplit _ _ _ HK n p v H1) as [x Hx]. destruct (k_gsplit _ _ _ HK n p' v' H2) as [y Hy].
    assert (cs_generators s !! n = Some (Manager p x)) as H3 by (apply (k_gens _ _ _ HK); by exists p, v, x).
    assert (cs_generators s !! n = Some (Manager p' y)) as H4 by (apply (k_gens _ _ _ HK); by exists p', v', y).
    rewrite H3 in H4. injection H4 as -> ->. split; [done|congruence].
  Qed.
  (** The testcase [line] with the generator [g] *)
  Lemma testcase_spec ls s a g line r : K ls s a -> cases_testcase split get_output file_name line (Some g) s = Some r <->
    RunOk split file_name ls g line /\ exists p v args, CGen g (Some (p, v)) ∈ ls /\ split line = Some args /\ r = push_testcase get_output (CustomIn p args) s.
  Proof.
    intros HK. unfold cases_testcase, RunOk. destruct (decide (cs_subtask_id s = 0)) as [H0|H0]; rewrite (k_st _ _ _ HK) in H0; [split; [done|]; by intros [[? _] _]|].
    pose proof (k_loc _ _ _ HK) as Hloc. rewrite decide_False in Hloc by done. destruct Hloc as (extra & He & Hextra).
    assert (forall defs args c, InForce ls c -> constraint_valid (variables file_name s defs args) c = Some false <-> Violated (TestVar file_name (subtasks_in ls - 1) (current_name ls) defs args) c) as Hcon.
    { intros defs args c (b & items & af & _ & Hc & _). rewrite constraint_false.
      - apply violated_ext. intros v t. unfold MapVal. rewrite <- (k_name _ _ _ HK). apply (variables_spec split). rewrite (k_st _ _ _ HK). lia.
      - destruct Hc as [Hc _]. by apply chain_length in Hc as [? _]. }
    assert (forall c, c ∈ cs_constraints s ++ extra <-> InForce ls c) as Hin.
    { intros c. rewrite elem_of_app, (k_glob _ _ _ HK), Hextra. symmetry. by apply in_force_spec. }
    assert (forall defs args, existsb (fun c => bool_decide (constraint_valid (variables file_name s defs args) c = Some false)) (cs_constraints s ++ extra) = false <->
      forall c, InForce ls c -> ~ Violated (TestVar file_name (subtasks_in ls - 1) (current_name ls) defs args) c) as Hex.
    { intros defs args. rewrite <- not_true_iff_false, existsb_exists. split.
      - intros H c Hc Hv. apply H. exists c. split; [apply elem_of_list_In; by apply Hin|]. apply bool_decide_eq_true. by apply Hcon.
      - intros H (c & Hc & Hb). apply elem_of_list_In, Hin in Hc. apply bool_decide_eq_true in Hb. apply Hcon in Hb; [|done]. by apply (H c). }
    cbn [mbind option_bind]. split.
    - intros (args & Hargs & H)%bind_Some'. apply bind_Some' in H as (m & Hm & H). apply bind_Some' in H as (extra' & He' & H). assert (extra' = extra) as -> by congruence.
      apply (k_gens _ _ _ HK) in Hm as (p & v & defs & Hd & Hs & ->). cbn [mg_args mg_source] in H. destruct (existsb _ _) eqn:Eb; [done|]. injection H as <-.
      split; [split; [done|]|by exists p, v, args]. exists p, v, defs, args. split_and!; [done..|]. by apply Hex.
    - intros [(_ & p & v & defs & args & Hd & Hs & Ha & Hok) (p' & v' & args' & Hd' & Ha' & ->)]. destruct (gen_unique ls s a g p v p' v' HK Hd Hd') as [<- _].
      rewrite Ha. cbn [mbind option_bind]. rewrite (proj2 (k_gens _ _ _ HK g (Manager p defs))) by (by exists p, v, defs). cbn [mbind option_bind]. rewrite He. cbn [mbind option_bind mg_args mg_source].
      rewrite (proj2 (Hex defs args) Hok). congruence.
  Qed.
  Lemma run_input ls s a g line : K ls s a -> RunOk split file_name ls g line -> exists p v args, CGen g (Some (p, v)) ∈ ls /\ split line = Some args.
  Proof. intros _ (_ & p & v & defs & args & ? & _ & ? & _). by exists p, v, args. Qed.
  Lemma step_run ls s a n line : K ls s a -> StepOk ls s (CRun n line).
  Proof.
    intros HK. cbn [cases_step CasesLineOk]. assert (step s (CRun n line) = cases_testcase split get_output file_name line (Some n) s \/ step s (CRun n line) = None /\ cases_testcase split get_output file_name line (Some n) s = None) as Hcase.
    { cbn [cases_step]. unfold cases_testcase. destruct (decide (cs_subtask_id s = 0)); [by left|]. destruct (cs_generators s !! n) as [m|] eqn:E; [by left|right]. split; [done|]. cbn [mbind option_bind]. destruct (split line); cbn [mbind option_bind]; rewrite ?E; done. }
    assert (step s (CRun n line) = cases_testcase split get_output file_name line (Some n) s) as Hstep by (destruct Hcase as [?|[-> ->]]; done). cbn [cases_step] in Hstep. rewrite Hstep. split.
    - intros H. destruct (run_input ls s a n line HK H) as (p & v & args & Hd & Ha). exists (push_testcase get_output (CustomIn p args) s). apply (testcase_spec ls s a); [done|]. split; [done|]. by exists p, v, args.
    - intros s' H. apply (testcase_spec ls s a) in H as [H (p & v & args & Hd & Ha & ->)]; [|done]. split; [done|]. apply (K_test ls s a); [done|by destruct H|done|].
      intros i'. cbn. split.
      + intros (p' & v' & args' & Hd' & Ha' & ->). destruct (gen_unique ls s a n p v p' v' HK Hd Hd') as [-> _]. congruence.
      + intros ->. by exists p, v, args.
  Qed.
  Lemma step_testcase ls s a line : K ls s a -> StepOk ls s (CTestcase line).
  Proof.
    intros HK. cbn [cases_step CasesLineOk]. rewrite (k_cur _ _ _ HK). destruct (current_gen ls) as [n|] eqn:En.
    2:{ split; [by intros (n & ? & _)|]. intros s'. unfold cases_testcase. destruct (decide _); done. }
    split.
    - intros (n' & [= <-] & H). destruct (run_input ls s a n line HK H) as (p & v & args & Hd & Ha). exists (push_testcase get_output (CustomIn p args) s). apply (testcase_spec ls s a); [done|]. split; [done|]. by exists p, v, args.
    - intros s' H. apply (testcase_spec ls s a) in H as [H (p & v & args & Hd & Ha & ->)]; [|done]. split; [by exists n|]. apply (K_test ls s a); [done|by destruct H|done|].
      intros i'. cbn. split.
      + intros (n' & p' & v' & args' & Hn' & Hd' & Ha' & ->). assert (n' = n) as -> by congruence. destruct (gen_unique ls s a n p v p' v' HK Hd Hd') as [-> _]. congruence.
      + intros ->. by exists n, p, v, args.
  Qed.
  (** ** All the lines *)
  Definition constraint_shape (l : cases_line) : Prop := match l with CConstraint items => Alt items /\ 1 < length items | _ => True end.
  Lemma K_step ls s a x : K ls s a -> constraint_shape x -> StepOk ls s x.
  Proof.
    intros HK Hx. destruct x as [n [[p v]|]|n [[p v]|]|items|score d|ds|p|n line|line| |].
    - by apply (step_gen_def ls s a).
    - by apply (step_gen ls s a).
    - by apply (step_val_def ls s a).
    - by apply (step_val ls s a).
    - destruct Hx. by apply (step_constraint ls s a).
    - by apply (step_subtask ls s a).
    - by apply (step_deps ls s a).
    - by apply (step_copy ls s a).
    - by apply (step_run ls s a).
    - by apply (step_testcase ls s a).
    - apply (step_inert ls s a); [done|by left].
    - apply (step_inert ls s a); [done|by right].
  Qed.
  Lemma cases_run_app s l1 l2 : run s (l1 ++ l2) = (s' ← run s l1; run s' l2).
  Proof. revert s. induction l1 as [|x l1 IH]; intros s; [done|]. cbn [app cases_run]. destruct (step s x) as [s'|]; [|done]. cbn [mbind option_bind]. apply IH. Qed.
  Lemma cases_run_snoc s l x : run s (l ++ [x]) = (s' ← run s l; step s' x).
  Proof. rewrite cases_run_app. destruct (run s l) as [s'|]; [|done]. cbn [cases_run mbind option_bind]. by destruct (step s' x). Qed.
  Lemma cases_run_spec ls : Forall constraint_shape ls -> (everywhere LineOk ls -> is_Some (run cases_init ls)) /\ (forall s, run cases_init ls = Some s -> everywhere LineOk ls /\ exists a, K ls s a).
  Proof.
    induction ls as [|x ls IH] using rev_ind; intros Hsh.
    - split; [by eexists|]. intros s [= <-]. split; [|exists a0; apply K_init]. intros b l a H. by destruct b.
    - apply Forall_app in Hsh as [Hsh Hx]. apply Forall_cons in Hx as [Hx _]. destruct (IH Hsh) as [IH1 IH2]. rewrite everywhere_snoc, cases_run_snoc. split.
      + intros [H1 H2]. destruct (IH1 H1) as [s Hs]. rewrite Hs. cbn [mbind option_bind]. destruct (IH2 s Hs) as (_ & a & HK). by apply (K_step ls s a x HK).
      + intros s'. destruct (run cases_init ls) as [s|] eqn:Hs; [|done]. cbn [mbind option_bind]. intros Hst. destruct (IH2 s eq_refl) as (H1 & a & HK).
        destruct (proj2 (K_step ls s a x HK Hx) s' Hst) as [H2 H3]. split; [by apply everywhere_snoc|done].
  Qed.
End cases_run.
