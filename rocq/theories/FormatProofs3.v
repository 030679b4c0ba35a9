(** * FormatProofs3: gen/GEN, the run *)
From Verif Require Import FormatSpec FormatProofs FormatProofs2.

Lemma sorted_snoc (l : list nat) k : StronglySorted lt l -> (forall x, x ∈ l -> x < k) -> StronglySorted lt (l ++ [k]).
Proof.
  induction 1 as [|x l Hl IH Hx]; intros Hk; cbn [app]; [repeat constructor|]. constructor.
  - apply IH. intros y Hy. apply Hk. by right.
  - apply Forall_app. split; [done|]. constructor; [|constructor]. apply Hk. left.
Qed.
Section gen_run.
  Context (clean : text -> option text) (get_validator : nat -> validator) (get_output : nat -> output_gen) (generator : text).
  Notation step := (gen_step clean get_validator get_output generator).
  Notation run := (gen_run clean get_validator get_output generator).
  Notation Named := (fun id n before l => exists w, l = LName w /\ in_header before = true /\ id + 1 = subtasks_of before /\ clean w = Some n).

  (** [GenTask] without dependencies *)
  Record G0 (ls : list gen_line) (f : gmap nat subtask) (tcs : gmap nat testcase_entry) : Prop := {
    g_ids : forall id, is_Some (f !! id) <-> id < subtasks_of ls;
    g_info : forall id s, f !! id = Some s -> se_id (st_info s) = id /\ se_validator (st_info s) = get_validator id /\ se_deps (st_info s) = [];
    g_score : forall id s, f !! id = Some s -> se_default (st_info s) = false ->
      somewhere (fun before l => l = LSubtask (se_score (st_info s)) /\ id = subtasks_of before) ls;
    g_default : forall id s, f !! id = Some s -> se_default (st_info s) = bool_decide (id = 0 /\ default_first ls = true);
    g_default_score : forall id s, f !! id = Some s -> se_default (st_info s) = true -> se_score (st_info s) = chars "100" /\ se_name (st_info s) = None;
    g_owned : forall id s k, f !! id = Some s ->
      (k ∈ st_owned s <-> somewhere (fun before l => tests l = true /\ k = testcases_of before /\ id + 1 = subtasks_of (before ++ [l])) ls);
    g_sorted : forall id s, f !! id = Some s -> StronglySorted lt (st_owned s) /\ st_testcases s = st_owned s;
    g_testcases : forall k t, tcs !! k = Some t <->
      somewhere (fun before l => exists i, input_of generator l = Some i /\ k = testcases_of before /\ t = TestcaseEntry k i (get_output k)) ls;
    g_name : forall id s n, f !! id = Some s -> (se_name (st_info s) = Some n <-> somewhere (Named id n) ls) }.

  Lemma G0_nil : G0 [] ∅ ∅.
  Proof.
    split.
    - intros id. rewrite lookup_empty. split; [by intros []|]. unfold subtasks_of. cbn. lia.
    - intros id s H. by rewrite lookup_empty in H.
    - intros id s H. by rewrite lookup_empty in H.
    - intros id s H. by rewrite lookup_empty in H.
    - intros id s H. by rewrite lookup_empty in H.
    - intros id s k H. by rewrite lookup_empty in H.
    - intros id s H. by rewrite lookup_empty in H.
    - intros k t. rewrite lookup_empty. split; [done|]. by intros ?%somewhere_nil.
    - intros id s n H. by rewrite lookup_empty in H.
  Qed.
  Lemma G0_started ls f tcs id : G0 ls f tcs -> is_Some (f !! id) -> started ls = true.
  Proof. intros HG H. apply (g_ids _ _ _ HG) in H. destruct (started ls) eqn:E; [done|]. apply started_subtasks in E. lia. Qed.
  Lemma inert_subtasks ls x : structural x = false -> subtasks_of (ls ++ [x]) = subtasks_of ls.
  Proof. unfold structural. intros [H1 H2]%orb_false_iff. rewrite subtasks_of_snoc, H1, H2. destruct (started ls); lia. Qed.
  Lemma inert_default ls x : structural x = false -> default_first (ls ++ [x]) = default_first ls.
  Proof. unfold structural. intros [H1 H2]%orb_false_iff. rewrite default_first_snoc, H2. destruct (started ls) eqn:E; [done|]. by destruct (not_started ls E) as (_ & _ & ->). Qed.
  Lemma input_tests l : tests l = false -> input_of generator l = None.
  Proof. by destruct l. Qed.
  Lemma G0_same ls f tcs x : G0 ls f tcs -> structural x = false -> (forall w, x <> LName w) -> G0 (ls ++ [x]) f tcs.
  Proof.
    intros HG Hx Hn. pose proof Hx as Hx'. unfold structural in Hx'. apply orb_false_iff in Hx' as [Hd Ht]. split.
    - intros id. rewrite inert_subtasks by done. apply HG.
    - apply HG.
    - intros id s Hs Hdef. apply somewhere_snoc. left. by apply HG.
    - intros id s Hs. rewrite inert_default by done. by apply HG.
    - apply HG.
    - intros id s k Hs. rewrite somewhere_snoc, Ht. rewrite (g_owned _ _ _ HG id s k Hs). split; [by left|]. by intros [?|[? _]].
    - apply HG.
    - intros k t. rewrite somewhere_snoc, (g_testcases _ _ _ HG k t), (input_tests x Ht). split; [by left|]. by intros [?|(i & ? & _)].
    - intros id s n Hs. rewrite somewhere_snoc, (g_name _ _ _ HG id s n Hs). split; [by left|]. intros [?|(w & -> & _)]; [done|]. by destruct (Hn w).
  Qed.
  Lemma G0_name ls f tcs id s w n : G0 ls f tcs -> in_header ls = true -> id + 1 = subtasks_of ls -> f !! id = Some s -> se_name (st_info s) = None -> clean w = Some n ->
    forall s', st_info s' = SubtaskEntry (se_id (st_info s)) (Some n) (se_score (st_info s)) (se_default (st_info s)) (se_validator (st_info s)) (se_deps (st_info s)) ->
    st_owned s' = st_owned s -> st_testcases s' = st_testcases s -> se_default (st_info s) = false -> G0 (ls ++ [LName w]) (<[id := s']> f) tcs.
  Proof.
    intros HG Hh Hid Hs Hnn Hw s' Hinfo Hown Htcs Hdef. split.
    - intros j. rewrite inert_subtasks by done. rewrite <- (g_ids _ _ _ HG). destruct (decide (j = id)) as [->|]; [rewrite lookup_insert, Hs|by rewrite lookup_insert_ne by done]. split; by eexists.
    - intros j t Ht. apply lookup_insert_Some in Ht as [[<- <-]|[_ Ht]]; [|by apply HG]. rewrite Hinfo. cbn. by apply (g_info _ _ _ HG).
    - intros j t Ht Hd. apply somewhere_snoc. left. apply lookup_insert_Some in Ht as [[<- <-]|[_ Ht]]; [|by apply HG]. rewrite Hinfo in *. cbn in *. by apply HG.
    - intros j t Ht. rewrite inert_default by done. apply lookup_insert_Some in Ht as [[<- <-]|[_ Ht]]; [|by apply HG]. rewrite Hinfo. cbn. by apply HG.
    - intros j t Ht Hd. apply lookup_insert_Some in Ht as [[<- <-]|[_ Ht]]; [|by apply (g_default_score _ _ _ HG j)]. rewrite Hinfo in Hd. cbn in Hd. congruence.
    - intros j t k Ht. rewrite somewhere_snoc. cbn [tests]. apply lookup_insert_Some in Ht as [[<- <-]|[_ Ht]]; [rewrite Hown, (g_owned _ _ _ HG id s k Hs)|rewrite (g_owned _ _ _ HG j t k Ht)]; (split; [by left|by intros [?|[? _]]]).
    - intros j t Ht. apply lookup_insert_Some in Ht as [[<- <-]|[_ Ht]]; [rewrite Hown, Htcs; by apply (g_sorted _ _ _ HG id)|by apply (g_sorted _ _ _ HG j)].
    - intros k t. rewrite somewhere_snoc, (g_testcases _ _ _ HG k t). cbn [input_of]. split; [by left|]. by intros [?|(i & ? & _)].
    - intros j t m Ht. rewrite somewhere_snoc. apply lookup_insert_Some in Ht as [[<- <-]|[Hne Ht]].
      + rewrite Hinfo. cbn. split.
        * intros [= <-]. right. by exists w.
        * intros [H|(w' & [= <-] & _ & _ & H)]; [|congruence]. apply (g_name _ _ _ HG id s m Hs) in H. congruence.
      + rewrite (g_name _ _ _ HG j t m Ht). split; [by left|]. intros [?|(w' & _ & _ & H & _)]; [done|lia].
  Qed.
  Lemma no_owned_beyond ls id k : subtasks_of ls <= id -> ~ somewhere (fun before l => tests l = true /\ k = testcases_of before /\ id + 1 = subtasks_of (before ++ [l])) ls.
  Proof. intros H (b & l & a & Hl & _ & _ & He). destruct (prefix_subtasks _ _ _ _ Hl) as [_ ?]. lia. Qed.
  Lemma no_name_beyond ls id n : subtasks_of ls <= id -> ~ somewhere (Named id n) ls.
  Proof. intros H (b & l & a & Hl & w & _ & _ & He & _). destruct (prefix_subtasks _ _ _ _ Hl) as [? ?]. lia. Qed.
  Lemma G0_subtask ls f tcs score : G0 ls f tcs ->
    G0 (ls ++ [LSubtask score]) (<[subtasks_of ls := Subtask (SubtaskEntry (subtasks_of ls) None score false (get_validator (subtasks_of ls)) []) [] []]> f) tcs.
  Proof.
    intros HG. assert (f !! subtasks_of ls = None) as Hnone. { apply eq_None_not_Some. intros H. apply (g_ids _ _ _ HG) in H. lia. }
    split.
    - intros j. rewrite subtasks_of_snoc. cbn [declares]. destruct (decide (j = subtasks_of ls)) as [->|].
      + rewrite lookup_insert. split; [intros _; lia|by eexists].
      + rewrite lookup_insert_ne by done. rewrite (g_ids _ _ _ HG). lia.
    - intros j t Ht. apply lookup_insert_Some in Ht as [[<- <-]|[_ Ht]]; [done|by apply HG].
    - intros j t Ht Hd. apply somewhere_snoc. apply lookup_insert_Some in Ht as [[<- <-]|[_ Ht]]; [by right|left; by apply HG].
    - intros j t Ht. rewrite default_first_snoc. cbn [tests]. apply lookup_insert_Some in Ht as [[<- <-]|[_ Ht]].
      + cbn. symmetry. apply bool_decide_eq_false_2. intros [H0 H]. destruct (started ls) eqn:E; [|done]. apply subtasks_started in E. lia.
      + rewrite (G0_started _ _ _ j HG) by (by eexists). by apply HG.
    - intros j t Ht Hd. apply lookup_insert_Some in Ht as [[<- <-]|[_ Ht]]; [done|by apply (g_default_score _ _ _ HG j)].
    - intros j t k Ht. rewrite somewhere_snoc. cbn [tests]. apply lookup_insert_Some in Ht as [[<- <-]|[_ Ht]].
      + cbn. split; [by intros ?%elem_of_nil|]. intros [H|[? _]]; [|done]. by apply no_owned_beyond in H.
      + rewrite (g_owned _ _ _ HG j t k Ht); (split; [by left|by intros [?|[? _]]]).
    - intros j t Ht. apply lookup_insert_Some in Ht as [[<- <-]|[_ Ht]]; [split; [constructor|done]|by apply (g_sorted _ _ _ HG j)].
    - intros k t. rewrite somewhere_snoc, (g_testcases _ _ _ HG k t). cbn [input_of]. split; [by left|]. by intros [?|(i & ? & _)].
    - intros j t m Ht. rewrite somewhere_snoc. apply lookup_insert_Some in Ht as [[<- <-]|[Hne Ht]].
      + cbn. split; [done|]. intros [H|(w' & ? & _)]; [|done]. by apply no_name_beyond in H.
      + rewrite (g_name _ _ _ HG j t m Ht). split; [by left|]. intros [?|(w' & ? & _)]; done.
  Qed.
  (** A testcase; [s]: the subtask in force (a new default one if there is none) *)
  Lemma G0_test ls f tcs id s l i : G0 ls f tcs -> input_of generator l = Some i -> id + 1 = subtasks_of (ls ++ [l]) ->
    (started ls = true /\ f !! id = Some s \/ started ls = false /\ s = Subtask (SubtaskEntry 0 None (chars "100") true (get_validator 0) []) [] []) ->
    G0 (ls ++ [l]) (<[id := Subtask (st_info s) (st_testcases s ++ [testcases_of ls]) (st_owned s ++ [testcases_of ls])]> f)
      (<[testcases_of ls := TestcaseEntry (testcases_of ls) i (get_output (testcases_of ls))]> tcs).
  Proof.
    intros HG Hi Hid Hcase.
    assert (tests l = true /\ declares l = false) as [Hl Hl'] by (by destruct l).
    assert (started ls = false -> id = 0) as Hid0. { intros E. rewrite subtasks_of_snoc, Hl', E, Hl, (started_subtasks _ E) in Hid. lia. }
    assert (started ls = false -> f = ∅) as Hf0. { intros E. apply map_empty. intros j. apply eq_None_not_Some. intros H. apply (g_ids _ _ _ HG) in H. rewrite (started_subtasks _ E) in H. lia. }
    assert (forall k, k ∈ st_owned s <-> somewhere (fun before l => tests l = true /\ k = testcases_of before /\ id + 1 = subtasks_of (before ++ [l])) ls) as Hown.
    { intros k. destruct Hcase as [[_ Hs]|[E ->]]; [by apply (g_owned _ _ _ HG)|]. cbn. split; [by intros ?%elem_of_nil|]. intros H. exfalso. revert H. apply no_owned_beyond. rewrite (started_subtasks _ E). lia. }
    split.
    - intros j. rewrite subtasks_of_snoc, Hl', Hl in *. destruct (decide (j = id)) as [->|].
      + rewrite lookup_insert. split; [intros _; lia|by eexists].
      + rewrite lookup_insert_ne by done. rewrite (g_ids _ _ _ HG). destruct (started ls) eqn:E; [lia|]. rewrite (started_subtasks _ E) in *. lia.
    - intros j t Ht. apply lookup_insert_Some in Ht as [[<- <-]|[_ Ht]]; [|by apply HG]. cbn. destruct Hcase as [[_ Hs]|[E ->]]; [by apply HG|]. rewrite (Hid0 E). done.
    - intros j t Ht Hd. apply somewhere_snoc. left. apply lookup_insert_Some in Ht as [[<- <-]|[_ Ht]]; [|by apply HG]. cbn in *. destruct Hcase as [[_ Hs]|[E ->]]; [by apply HG|done].
    - intros j t Ht. rewrite default_first_snoc. apply lookup_insert_Some in Ht as [[<- <-]|[_ Ht]].
      + cbn. destruct Hcase as [[-> Hs]|[E ->]]; [by apply HG|]. rewrite E, (Hid0 E), Hl. done.
      + rewrite (G0_started _ _ _ j HG) by (by eexists). by apply HG.
    - intros j t Ht Hd. apply lookup_insert_Some in Ht as [[<- <-]|[_ Ht]]; [|by apply (g_default_score _ _ _ HG j)]. cbn in *. destruct Hcase as [[_ Hs]|[E ->]]; [by apply (g_default_score _ _ _ HG id)|done].
    - intros j t k Ht. rewrite somewhere_snoc. apply lookup_insert_Some in Ht as [[<- <-]|[Hne Ht]].
      + cbn. rewrite elem_of_app, elem_of_list_singleton, Hown. split; (intros [?|H]; [by left|right]); [by rewrite H|by destruct H as (_ & -> & _)].
      + rewrite (g_owned _ _ _ HG j t k Ht). split; [by left|]. intros [?|(_ & _ & H)]; [done|lia].
    - intros j t Ht. apply lookup_insert_Some in Ht as [[<- <-]|[_ Ht]]; [|by apply (g_sorted _ _ _ HG j)]. cbn.
      assert (StronglySorted lt (st_owned s) /\ st_testcases s = st_owned s) as [Hso ->]. { destruct Hcase as [[_ Hs]|[E ->]]; [by apply (g_sorted _ _ _ HG id)|split; [constructor|done]]. }
      split; [|done]. apply sorted_snoc; [done|]. intros x H1. apply Hown in H1 as (b & l' & a & Hb & Hl'' & -> & _). by apply (prefix_testcases _ _ _ _ Hb).
    - intros k t. rewrite somewhere_snoc, lookup_insert_Some. split.
      + intros [[<- <-]|[_ H]]; [right; by exists i|left; by apply HG].
      + intros [H|(i' & Hi' & -> & ->)]; [|left; split; [done|]; congruence]. right. split; [|by apply HG].
        destruct H as (b & l' & a & Hb & i' & Hi' & -> & _). assert (tests l' = true) as Ht by (by destruct l'). pose proof (prefix_testcases _ _ _ _ Hb Ht). lia.
    - intros j t m Ht. rewrite somewhere_snoc. apply lookup_insert_Some in Ht as [[<- <-]|[Hne Ht]].
      + cbn. destruct Hcase as [[_ Hs]|[E ->]].
        * rewrite (g_name _ _ _ HG id s m Hs). split; [by left|]. intros [?|(w' & -> & _)]; done.
        * cbn. split; [done|]. intros [H|(w' & -> & _)]; [|done]. exfalso. revert H. apply no_name_beyond. rewrite (started_subtasks _ E). lia.
      + rewrite (g_name _ _ _ HG j t m Ht). split; [by left|]. intros [?|(w' & -> & _)]; done.
  Qed.

  (** ** The run *)
  Definition a0 : assembly := Assembly ∅ ∅ None.
  Definition DepAt (id : nat) (d : text) (before : list gen_line) (l : gen_line) : Prop := exists ds, l = LDeps ds /\ in_header before = true /\ id + 1 = subtasks_of before /\ d ∈ ds.
  Record J (ls : list gen_line) (s : gen_state) (a : assembly) : Prop := {
    j_run : assemble_run a0 (gs_entries s) = Some a;
    j_tc : gs_testcases s = testcases_of ls;
    j_st : gs_subtasks s = subtasks_of ls;
    j_def : gs_default s = negb (started ls);
    j_G : G0 ls (flush_last a) (as_testcases a);
    j_header : match last (gs_entries s) with Some (ESubtask e) => in_header ls = true /\ se_default e = false | _ => in_header ls = false end;
    j_cur : match as_last a with Some s' => started ls = true /\ se_id (st_info s') + 1 = subtasks_of ls | None => started ls = false end;
    j_names : forall n id, gs_names s !! n = Some id <-> exists s', flush_last a !! id = Some s' /\ se_name (st_info s') = Some n;
    j_deps : forall id d, d ∈ default [] (gs_deps s !! id) <-> somewhere (DepAt id d) ls }.
  Definition LineOk (before : list gen_line) (l : gen_line) : Prop :=
    match l with
    | LName w => in_header before = true /\ exists n, clean w = Some n /\ (forall m, ~ somewhere (Named (subtasks_of before - 1) m) before) /\ (forall id, ~ somewhere (Named id n) before)
    | LDeps _ => in_header before = true
    | LCommand _ => forall p, get_output (testcases_of before) <> StaticOut p
    | _ => True
    end.
  Lemma run_app s l1 l2 : run s (l1 ++ l2) = (s' ← run s l1; run s' l2).
  Proof. revert s. induction l1 as [|x l1 IH]; intros s; [done|]. cbn [app gen_run]. destruct (step s x) as [s'|]; [|done]. cbn [mbind option_bind]. apply IH. Qed.
  Lemma run_snoc s l x : run s (l ++ [x]) = (s' ← run s l; step s' x).
  Proof. rewrite run_app. destruct (run s l) as [s'|]; [|done]. cbn. by destruct (step s' x). Qed.
  Lemma assemble_app a l1 l2 : assemble_run a (l1 ++ l2) = (a ← assemble_run a l1; assemble_run a l2).
  Proof. revert a. induction l1 as [|x l1 IH]; intros a; [done|]. cbn [app assemble_run]. destruct (assemble_step a x) as [a'|]; [|done]. cbn [mbind option_bind]. apply IH. Qed.
  Lemma assemble_snoc a l x : assemble_run a (l ++ [x]) = (a ← assemble_run a l; assemble_step a x).
  Proof. rewrite assemble_app. destruct (assemble_run a l) as [a'|]; [|done]. cbn. by destruct (assemble_step a' x). Qed.
  Lemma last_Some_app {A} (l : list A) x : last l = Some x -> exists l', l = l' ++ [x].
  Proof. destruct l as [|y l _] using rev_ind; [done|]. rewrite last_snoc. intros [= ->]. by exists l. Qed.
  Lemma map_last_snoc {A} (f : A -> A) l x : map_last f (l ++ [x]) = l ++ [f x].
  Proof. unfold map_last. rewrite last_snoc. by rewrite removelast_last. Qed.
  Lemma J_init : J [] gen_init a0.
  Proof.
    split; try done.
    - apply G0_nil.
    - intros n id. cbn. rewrite !lookup_empty. split; [done|]. by intros (s' & H & _).
    - intros id d. cbn. rewrite lookup_empty. cbn. split; [by intros ?%elem_of_nil|by intros ?%somewhere_nil].
  Qed.
  Lemma J_last_lookup ls s a s' : J ls s a -> as_last a = Some s' -> flush_last a !! (subtasks_of ls - 1) = Some s' /\ se_id (st_info s') = subtasks_of ls - 1.
  Proof. intros HJ Hl. pose proof (j_cur _ _ _ HJ) as Hc. rewrite Hl in Hc. destruct Hc as [_ Hc]. unfold flush_last. rewrite Hl. replace (subtasks_of ls - 1) with (se_id (st_info s')) by lia. by rewrite lookup_insert. Qed.
  Lemma J_header_last ls s a : J ls s a -> in_header ls = true -> exists es e a1, gs_entries s = es ++ [ESubtask e] /\ se_default e = false /\ assemble_run a0 es = Some a1 /\
    a = Assembly (flush_last a1) (as_testcases a1) (Some (Subtask e [] [])).
  Proof.
    intros HJ Hh. pose proof (j_header _ _ _ HJ) as H. destruct (last (gs_entries s)) as [[e|t]|] eqn:E; [|congruence..]. destruct H as [_ Hd].
    apply last_Some_app in E as [es E]. pose proof (j_run _ _ _ HJ) as Hr. rewrite E, assemble_snoc in Hr. destruct (assemble_run a0 es) as [a1|] eqn:E1; [|done]. cbn in Hr. injection Hr as <-.
    by exists es, e, a1.
  Qed.
  (** Lines that only change the dependencies, or nothing *)
  Lemma J_same ls s a x s' : J ls s a -> structural x = false -> (forall w, x <> LName w) ->
    gs_entries s' = gs_entries s -> gs_testcases s' = gs_testcases s -> gs_subtasks s' = gs_subtasks s -> gs_default s' = gs_default s -> gs_names s' = gs_names s ->
    (forall id d, d ∈ default [] (gs_deps s' !! id) <-> d ∈ default [] (gs_deps s !! id) \/ DepAt id d ls x) -> J (ls ++ [x]) s' a.
  Proof.
    intros HJ Hx Hn He Ht Hs Hd Hnm Hdep. pose proof Hx as Hx'. unfold structural in Hx'. apply orb_false_iff in Hx' as [Hdx Htx]. split.
    - rewrite He. apply HJ.
    - rewrite Ht, testcases_of_snoc, Htx, (j_tc _ _ _ HJ). lia.
    - rewrite Hs, inert_subtasks by done. apply HJ.
    - rewrite Hd, started_app. unfold started at 2. cbn. rewrite Hx, !orb_false_r. apply HJ.
    - apply G0_same; [apply HJ|done|done].
    - rewrite He, in_header_snoc, Hx. apply HJ.
    - rewrite inert_subtasks by done. rewrite started_app. unfold started at 2 4. cbn. rewrite Hx, !orb_false_r. apply HJ.
    - rewrite Hnm. apply HJ.
    - intros id d. rewrite Hdep, somewhere_snoc. by rewrite (j_deps _ _ _ HJ).
  Qed.
  Lemma J_name_free ls s a n : J ls s a -> gs_names s !! n = None <-> (forall id, ~ somewhere (Named id n) ls).
  Proof.
    intros HJ. split.
    - intros H id Hs. assert (is_Some (flush_last a !! id)) as [s' Hs'].
      { apply (g_ids _ _ _ (j_G _ _ _ HJ)). destruct Hs as (b & l & a' & Hb & w & _ & _ & Hid & _). destruct (prefix_subtasks _ _ _ _ Hb). lia. }
      apply (g_name _ _ _ (j_G _ _ _ HJ) id s' n Hs') in Hs. assert (gs_names s !! n = Some id) as H' by (apply (j_names _ _ _ HJ); eauto). congruence.
    - intros H. destruct (gs_names s !! n) as [id|] eqn:E; [|done]. apply (j_names _ _ _ HJ) in E as (s' & Hs' & Hn). exfalso. apply (H id). by apply (g_name _ _ _ (j_G _ _ _ HJ) id s' n Hs').
  Qed.
  Lemma J_test ls s a l i : J ls s a -> input_of generator l = Some i -> exists a', J (ls ++ [l]) (add_testcase get_output i (add_default get_validator s)) a'.
  Proof.
    intros HJ Hi. assert (tests l = true /\ declares l = false /\ structural l = true) as (Ht & Hd & Hst) by (by destruct l).
    assert (exists a1 s1, assemble_run a0 (gs_entries (add_default get_validator s)) = Some a1 /\ as_last a1 = Some s1 /\ as_testcases a1 = as_testcases a /\
      se_id (st_info s1) + 1 = subtasks_of (ls ++ [l]) /\ gs_subtasks (add_default get_validator s) = subtasks_of (ls ++ [l]) /\ gs_default (add_default get_validator s) = false /\
      <[se_id (st_info s1) := s1]> (as_subtasks a1) = <[se_id (st_info s1) := s1]> (flush_last a) /\
      (started ls = true /\ flush_last a !! se_id (st_info s1) = Some s1 \/ started ls = false /\ s1 = Subtask (SubtaskEntry 0 None (chars "100") true (get_validator 0) []) [] [])) as H.
    { rewrite subtasks_of_snoc, Ht, Hd. pose proof (j_cur _ _ _ HJ) as Hcur. pose proof (j_st _ _ _ HJ) as Hs. unfold add_default. destruct (as_last a) as [s1|] eqn:El.
      - destruct Hcur as [Hst' Hcur]. pose proof (j_def _ _ _ HJ) as Hdef. rewrite Hst' in Hdef |- *. rewrite Hdef. cbn [negb]. destruct (J_last_lookup _ _ _ _ HJ El) as [Hlook Hid]. exists a, s1.
        split_and!; [apply HJ|done|done|lia|lia|done|unfold flush_last; rewrite El; by rewrite insert_insert|left; by rewrite Hid].
      - pose proof (j_def _ _ _ HJ) as Hdef. rewrite Hcur in Hdef |- *. rewrite Hdef. cbn [negb gs_entries gs_subtasks gs_default]. rewrite assemble_snoc, (j_run _ _ _ HJ). cbn.
        pose proof (started_subtasks _ Hcur) as H0. eexists _, _. split_and!; [done|done|done|cbn; lia|lia|done|done|by right]. }
    destruct H as (a1 & s1 & Hr & Hl1 & Ht1 & Hid & Hsub & Hdef & Hmap & Hcase).
    set (k := testcases_of ls).
    assert (gs_testcases (add_default get_validator s) = k /\ gs_names (add_default get_validator s) = gs_names s /\ gs_deps (add_default get_validator s) = gs_deps s) as (Hk & Hnm & Hdp).
    { unfold add_default, k. destruct (gs_default s); cbn; by rewrite (j_tc _ _ _ HJ). }
    pose (new := Subtask (st_info s1) (st_testcases s1 ++ [k]) (st_owned s1 ++ [k])).
    exists (Assembly (as_subtasks a1) (<[k := TestcaseEntry k i (get_output k)]> (as_testcases a)) (Some new)).
    assert (flush_last (Assembly (as_subtasks a1) (<[k := TestcaseEntry k i (get_output k)]> (as_testcases a)) (Some new)) = <[se_id (st_info s1) := new]> (flush_last a)) as Hflush.
    { unfold flush_last at 1. cbn. rewrite <- (insert_insert (as_subtasks a1) _ new s1), Hmap. by rewrite insert_insert. }
    split; cbn [add_testcase gs_entries gs_testcases gs_subtasks gs_names gs_deps gs_default]; rewrite ?Hk.
    - rewrite assemble_snoc, Hr. cbn. rewrite Hl1, Ht1. done.
    - rewrite testcases_of_snoc, Ht. done.
    - done.
    - rewrite Hdef, started_app. cbn. rewrite Hst. by rewrite orb_true_r.
    - rewrite Hflush. apply (G0_test ls _ _ _ s1 l i); [apply HJ|done|done|done].
    - rewrite last_snoc, in_header_snoc, Hst. done.
    - cbn. rewrite started_app. cbn. rewrite Hst. by rewrite orb_true_r.
    - intros n id. rewrite Hnm, Hflush, (j_names _ _ _ HJ).
      assert (forall m, se_name (st_info s1) = Some m -> flush_last a !! se_id (st_info s1) = Some s1) as Hnamed. { intros m Hm. destruct Hcase as [[_ ?]|[_ ->]]; done. }
      split.
      + intros (s2 & H2 & Hn2). destruct (decide (id = se_id (st_info s1))) as [->|Hne]; [|exists s2; by rewrite lookup_insert_ne].
        exists new. rewrite lookup_insert. split; [done|]. cbn. destruct Hcase as [[_ Hc]|[Hc ->]]; [congruence|].
        assert (is_Some (flush_last a !! 0)) as Hx by (by eexists). apply (G0_started _ _ _ _ (j_G _ _ _ HJ)) in Hx. congruence.
      + intros (s2 & H2 & Hn2). apply lookup_insert_Some in H2 as [[<- <-]|[_ H2]]; [|by exists s2]. exists s1. split; [by apply (Hnamed n)|done].
    - intros id d. rewrite Hdp, somewhere_snoc, (j_deps _ _ _ HJ). split; [by left|]. intros [?|(ds & -> & _)]; done.
  Qed.
  Lemma J_step ls s a x : J ls s a -> (LineOk ls x -> is_Some (step s x)) /\ (forall s', step s x = Some s' -> LineOk ls x /\ exists a', J (ls ++ [x]) s' a').
  Proof.
    intros HJ. destruct x as [score|w|ds|path| |args|].
    - (* #ST *)
      split; [by eexists|]. intros s' H. split; [done|]. cbn in H. injection H as <-.
      exists (Assembly (flush_last a) (as_testcases a) (Some (Subtask (SubtaskEntry (subtasks_of ls) None score false (get_validator (subtasks_of ls)) []) [] []))).
      rewrite !(j_st _ _ _ HJ). split; cbn.
      + rewrite assemble_snoc, (j_run _ _ _ HJ). done.
      + rewrite testcases_of_snoc, (j_tc _ _ _ HJ). cbn. lia.
      + rewrite subtasks_of_snoc. done.
      + rewrite started_app. cbn. by rewrite orb_true_r.
      + apply G0_subtask. apply HJ.
      + rewrite last_snoc, in_header_snoc. done.
      + rewrite started_app, subtasks_of_snoc. cbn. by rewrite orb_true_r.
      + intros n id. rewrite (j_names _ _ _ HJ). split.
        * intros (s1 & H1 & H2). exists s1. split; [|done]. rewrite lookup_insert_ne; [done|]. intros <-. assert (is_Some (flush_last a !! subtasks_of ls)) as Hx by (by eexists). apply (g_ids _ _ _ (j_G _ _ _ HJ)) in Hx. lia.
        * intros (s1 & H1 & H2). apply lookup_insert_Some in H1 as [[<- <-]|[_ H1]]; [done|]. by exists s1.
      + intros id d. rewrite somewhere_snoc, (j_deps _ _ _ HJ). split; [by left|]. intros [?|(ds & ? & _)]; done.
    - (* #STNAME *)
      cbn [step LineOk]. pose proof (j_header _ _ _ HJ) as Hh.
      destruct (last (gs_entries s)) as [[e|t]|] eqn:El; [|rewrite Hh; split; [by intros [? _]|done]..]. destruct Hh as [Hh Hdef].
      destruct (J_header_last _ _ _ HJ Hh) as (es & e' & a1 & He & _ & Ha1 & Ha).
      assert (e' = e) as -> by (rewrite He, last_snoc in El; by injection El). subst a.
      destruct (J_last_lookup _ _ _ _ HJ eq_refl) as [Hlook Hid]. cbn [st_info] in *.
      assert (1 <= subtasks_of ls) as Hge by (apply subtasks_started; by apply in_header_started).
      assert (se_name e = None <-> forall m, ~ somewhere (Named (subtasks_of ls - 1) m) ls) as Hname.
      { pose proof (fun m => g_name _ _ _ (j_G _ _ _ HJ) _ _ m Hlook) as Hg. cbn in Hg. split.
        - intros H m Hm. apply Hg in Hm. congruence.
        - intros H. destruct (se_name e) as [m|] eqn:E; [|done]. exfalso. apply (H m). by apply Hg. }
      split.
      + intros (_ & n & Hn & Hcur & Hfree). rewrite (proj2 Hname Hcur), Hn. cbn. rewrite (proj2 (J_name_free _ _ _ n HJ) Hfree). by eexists.
      + intros s'. destruct (se_name e) as [m|] eqn:Ename; [done|]. destruct (clean w) as [n|] eqn:Hn; [|done]. cbn [mbind option_bind]. destruct (gs_names s !! n) as [old|] eqn:Efree; [done|].
        intros [= <-]. pose proof (proj1 (J_name_free _ _ _ n HJ) Efree) as Hfree. split; [split; [done|]; exists n; split_and!; [done|by apply Hname|done]|].
        pose (e' := SubtaskEntry (se_id e) (Some n) (se_score e) (se_default e) (se_validator e) (se_deps e)).
        exists (Assembly (flush_last a1) (as_testcases a1) (Some (Subtask e' [] []))).
        assert (flush_last (Assembly (flush_last a1) (as_testcases a1) (Some (Subtask e' [] []))) = <[subtasks_of ls - 1 := Subtask e' [] []]> (flush_last (Assembly (flush_last a1) (as_testcases a1) (Some (Subtask e [] []))))) as Hflush.
        { unfold flush_last at 1 3. cbn. rewrite Hid. by rewrite insert_insert. }
        split; cbn [gs_entries gs_testcases gs_subtasks gs_names gs_deps gs_default as_testcases].
        * rewrite He, map_last_snoc, assemble_snoc, Ha1. done.
        * rewrite testcases_of_snoc, (j_tc _ _ _ HJ). cbn. lia.
        * rewrite inert_subtasks by done. apply HJ.
        * rewrite started_app. cbn. rewrite !orb_false_r. apply HJ.
        * rewrite Hflush. eapply (G0_name ls _ _ (subtasks_of ls - 1) (Subtask e [] []) w n); [apply HJ|done|lia|done..].
        * rewrite He, map_last_snoc, last_snoc, in_header_snoc. done.
        * cbn. rewrite inert_subtasks by done. rewrite started_app, (in_header_started _ Hh). split; [done|]. cbn in Hid. lia.
        * intros m id. rewrite Hflush. destruct (decide (m = n)) as [->|Hmn].
          -- rewrite lookup_insert. split.
             ++ intros [= <-]. exists (Subtask e' [] []). rewrite Hid, lookup_insert. done.
             ++ intros (s1 & H1 & H2). apply lookup_insert_Some in H1 as [[<- <-]|[_ H1]]; [by rewrite Hid|].
                exfalso. assert (gs_names s !! n = Some id) as H3 by (apply (j_names _ _ _ HJ); eauto). congruence.
          -- rewrite lookup_insert_ne by done. rewrite (j_names _ _ _ HJ). split.
             ++ intros (s1 & H1 & H2). exists s1. split; [|done]. rewrite lookup_insert_ne; [done|]. intros <-. rewrite Hlook in H1. injection H1 as <-. cbn in H2. congruence.
             ++ intros (s1 & H1 & H2). apply lookup_insert_Some in H1 as [[<- <-]|[_ H1]]; [cbn in H2; congruence|]. by exists s1.
        * intros id d. rewrite somewhere_snoc, (j_deps _ _ _ HJ). split; [by left|]. intros [?|(ds & ? & _)]; done.
    - (* #STDEP *)
      cbn [step LineOk]. pose proof (j_header _ _ _ HJ) as Hh.
      destruct (last (gs_entries s)) as [[e|t]|] eqn:El; [|rewrite Hh; split; [done|done]..]. destruct Hh as [Hh Hdef].
      destruct (J_header_last _ _ _ HJ Hh) as (es & e' & a1 & He & _ & Ha1 & Ha).
      assert (e' = e) as -> by (rewrite He, last_snoc in El; by injection El).
      assert (se_id e = subtasks_of ls - 1) as Hid. { subst a. by destruct (J_last_lookup _ _ _ _ HJ eq_refl) as [_ Hid]. }
      assert (1 <= subtasks_of ls) as Hge by (apply subtasks_started; by apply in_header_started).
      split; [by eexists|]. intros s' [= <-]. split; [done|]. exists a. apply (J_same ls s); [done..|]. cbn [gs_deps]. intros id d.
      destruct ds as [|d0 ds].
      + split; [by left|]. intros [?|(ds & [= <-] & _ & _ & H)]; [done|]. by apply elem_of_nil in H.
      + destruct (decide (id = se_id e)) as [->|Hne].
        * rewrite lookup_insert. cbn [default from_option]. unfold id. rewrite elem_of_app. split; (intros [?|H]; [by left|right]); [exists (d0 :: ds); split_and!; [done|done|lia|done]|by destruct H as (ds' & [= <-] & _ & _ & H)].
        * rewrite lookup_insert_ne by done. split; [by left|]. intros [?|(ds' & _ & _ & H & _)]; [done|lia].
    - (* #COPY *)
      cbn [step LineOk]. split; [by eexists|]. intros s' [= <-]. split; [done|]. by apply (J_test ls s a (LCopy path)).
    - cbn [step LineOk]. split; [by eexists|]. intros s' [= <-]. split; [done|]. exists a. apply (J_same ls s); [done..|]. intros id d. split; [by left|]. intros [?|(ds & ? & _)]; done.
    - cbn [step LineOk]. rewrite (j_tc _ _ _ HJ). destruct (get_output (testcases_of ls)) as [p|src|] eqn:Eo; split.
      + intros H. by destruct (H p).
      + done.
      + by eexists.
      + intros s' [= <-]. split; [done|]. by apply (J_test ls s a (LCommand args)).
      + by eexists.
      + intros s' [= <-]. split; [done|]. by apply (J_test ls s a (LCommand args)).
    - cbn [step LineOk]. split; [by eexists|]. intros s' [= <-]. split; [done|]. exists a. apply (J_same ls s); [done..|]. intros id d. split; [by left|]. intros [?|(ds & ? & _)]; done.
  Qed.
  Lemma run_spec ls : (everywhere LineOk ls -> is_Some (run gen_init ls)) /\ (forall s, run gen_init ls = Some s -> everywhere LineOk ls /\ exists a, J ls s a).
  Proof.
    induction ls as [|x ls [IH1 IH2]] using rev_ind.
    - split; [by eexists|]. intros s [= <-]. split; [|exists a0; apply J_init]. intros b l a H. by destruct b.
    - rewrite everywhere_snoc, run_snoc. split.
      + intros [H1 H2]. destruct (IH1 H1) as [s Hs]. rewrite Hs. cbn. destruct (IH2 s Hs) as (_ & a & HJ). by apply (J_step ls s a x HJ).
      + intros s'. destruct (run gen_init ls) as [s|] eqn:Hs; [|done]. cbn. intros Hst. destruct (IH2 s eq_refl) as (H1 & a & HJ). destruct (proj2 (J_step ls s a x HJ) s' Hst) as [H2 H3]. split; [by apply everywhere_snoc|done].
  Qed.
End gen_run.
