(** * ReportProofs2: the table of the checks (C89) *)
From stdpp Require Import gmap strings sorting.
From Verif Require Import ReportSpec ReportProofs.

(** ** Widths *)
Lemma widen_spec i w ws ws' : widen i w ws = Some ws' -> (i < length ws)%nat /\ length ws' = length ws /\
  (forall j x, ws !! j = Some x -> exists y, ws' !! j = Some y /\ (x <= y)%nat) /\ (exists y, ws' !! i = Some y /\ (w <= y)%nat).
Proof.
  unfold widen. destruct (ws !! i) as [x|] eqn:E; cbn; [|done]. intros [= <-]. pose proof (lookup_lt_Some _ _ _ E) as Hi. split_and!.
  - done.
  - apply insert_length.
  - intros j y Hj. destruct (decide (j = i)) as [->|Hne].
    + rewrite list_lookup_insert by done. exists (x `max` w)%nat. split; [done|]. simplify_eq. lia.
    + rewrite list_lookup_insert_ne by done. eauto.
  - rewrite list_lookup_insert by done. eexists. split; [done|]. lia.
Qed.
Lemma widen_all_spec l : forall ws ws', widen_all l ws = Some ws' -> length ws' = length ws /\
  (forall j x, ws !! j = Some x -> exists y, ws' !! j = Some y /\ (x <= y)%nat) /\
  (forall i w, (i, w) ∈ l -> exists y, ws' !! i = Some y /\ (w <= y)%nat).
Proof.
  induction l as [|[i w] l IH]; intros ws ws' H; cbn in H.
  - simplify_eq. split_and!; [done|eauto|]. intros i w Hin. by apply elem_of_nil in Hin.
  - destruct (widen i w ws) as [ws1|] eqn:E; cbn in H; [|done]. destruct (widen_spec _ _ _ _ E) as (Hi & Hl & Hm & y & Hy & Hw).
    destruct (IH _ _ H) as (Hl' & Hm' & Hin). split_and!; [congruence| |].
    + intros j x Hj. destruct (Hm _ _ Hj) as (z & Hz & Hxz). destruct (Hm' _ _ Hz) as (z' & Hz' & Hzz). exists z'. split; [done|lia].
    + intros j v [Heq|Hjv]%elem_of_cons; [|by apply Hin]. simplify_eq. destruct (Hm' _ _ Hy) as (z & Hz & Hyz). exists z. split; [done|lia].
Qed.
Lemma widen_all_some l : forall ws, is_Some (widen_all l ws) <-> Forall (fun x => (x.1 < length ws)%nat) l.
Proof.
  induction l as [|[i w] l IH]; intros ws; cbn.
  - split; [constructor|by eexists].
  - destruct (widen i w ws) as [ws1|] eqn:E; cbn.
    + destruct (widen_spec _ _ _ _ E) as (Hi & Hl & _). rewrite IH, Hl. split.
      * intros H. by constructor.
      * intros H. by apply Forall_cons_1 in H as [_ H].
    + split; [by intros [? ?]|]. intros H. apply Forall_cons_1 in H as [H _]. cbn in H. exfalso. unfold widen in E.
      apply lookup_lt_is_Some in H as [x Hx]. rewrite Hx in E. done.
Qed.
Lemma string_length_app (a b : string) : String.length (a +:+ b) = (String.length a + String.length b)%nat.
Proof. induction a as [|c a IH]; simpl; [done|]. f_equal. exact IH. Qed.
Lemma compact_pos k : (0 < String.length (compact k))%nat.
Proof. destruct k; cbn; lia. Qed.
Lemma printed_from cs : forall n, (0 < n)%nat ->
  foldl (fun n (c : check_kind * bool) => ((if decide (0 < n) then n + 1 else n) + String.length (compact c.1))%nat) n cs =
    (n + foldr (fun (c : check_kind * bool) k => 1 + String.length (compact c.1) + k) 0 cs)%nat.
Proof.
  induction cs as [|c cs IH]; intros n Hn; cbn [foldl foldr]; [lia|]. rewrite decide_True by done. rewrite IH by lia. lia.
Qed.
Lemma printed_cell cs : printed_len cs = cell_len cs.
Proof.
  unfold printed_len, cell_len. destruct cs as [|c cs]; [done|]. cbn [foldl]. rewrite decide_False by lia. pose proof (compact_pos c.1).
  rewrite printed_from by lia. rewrite Nat.add_0_l. clear H. revert c. induction cs as [|d cs IH]; intros c.
  - cbn. lia.
  - change (String.concat " " (compact ∘ fst <$> c :: d :: cs)) with (compact c.1 +:+ " " +:+ String.concat " " (compact ∘ fst <$> d :: cs)).
    rewrite !string_length_app. rewrite <- IH. cbn [foldr]. simpl (String.length " "). lia.
Qed.

Section checks.
  Context (t : ui_task) (path_le : relation path) `{!RelDecision path_le}.
  Context (order : list nat) (wild : text -> text -> bool) (is_symlink : path -> bool) (name_len : text -> nat).
  Context (u : ui_state) (sols : list (path * sol_info)) (sol_len : path -> nat).
  Hypothesis (Hu : full t u) (Ht : testcases_exist t) (Horder : each_subtask t order) (Hsols : sols ≡ₚ map_to_list (u_solutions u)).

  Lemma in_order st : st ∈ order <-> is_Some (ut_subtasks t !! st).
  Proof using Horder. unfold each_subtask in Horder. rewrite Horder, elem_of_elements, elem_of_dom. done. Qed.
  Lemma order_nodup : NoDup order.
  Proof using Horder. unfold each_subtask in Horder. rewrite Horder. apply NoDup_elements. Qed.

  (** One check *)
  Definition said (sol : path) (c : sol_check) (st : nat) : option (check_kind * bool) :=
    match check_subtask t u sol c st with Some (Some o) => Some (sc_kind (co_check o), co_success o) | _ => None end.
  Lemma check_subtask_some sol c st : is_Some (ut_subtasks t !! st) -> is_Some (check_subtask t u sol c st).
  Proof using Hu Ht.
    intros [s Hs]. unfold check_subtask. destruct (u_evaluations u !! sol) as [e|] eqn:He; [|by eexists]. rewrite Hs. cbn.
    match goal with |- context [mapM ?f (us_testcases s)] => destruct (mapM_some f (us_testcases s)) as [a Ha] end.
    - intros tc Htc. destruct (proj1 Hu _ _ He) as [_ H2]. pose proof (Ht _ _ _ Hs Htc) as Hin. rewrite <- H2 in Hin. apply elem_of_dom in Hin as [y ->]. by eexists.
    - rewrite Ha. cbn. destruct (mapM id a); by eexists.
  Qed.
  Lemma check_subtask_key sol c st o : check_subtask t u sol c st = Some (Some o) -> co_solution o = sol /\ co_subtask o = st /\ co_check o = c.
  Proof.
    unfold check_subtask. destruct (u_evaluations u !! sol) as [e|]; [|done]. destruct (ut_subtasks t !! st) as [s|]; cbn; [|done].
    intros H. apply bind_Some in H as (a & _ & H). destruct (mapM id a); [|done]. injection H as <-. done.
  Qed.
  Lemma mapM_join {A B} (f : A -> option B) (g : B -> option outcome) l a : mapM (fun x => g <$> f x) l = Some a -> mapM id a = mapM (fun x => y ← f x; g y) l.
  Proof.
    revert a. induction l as [|x l IH]; intros a H; cbn in H; [by injection H as <-|]. destruct (f x) as [y|] eqn:E; cbn in H; [|done].
    apply bind_Some in H as (k & Ek & H). injection H as <-. cbn. rewrite E. cbn. destruct (g y); cbn; [|done]. by rewrite (IH _ Ek).
  Qed.
  Lemma said_expected sol c st s name : ut_subtasks t !! st = Some s -> us_name s = Some name -> wild (sc_pattern c) name = true ->
    expected_check t wild u sol st c = match said sol c st with Some x => [x] | None => [] end.
  Proof using Hu Ht.
    intros Hs Hn Hw. unfold expected_check, said. destruct (check_subtask_some sol c st ltac:(by eexists)) as [o Ho]. rewrite Ho.
    revert Ho. unfold check_subtask. rewrite Hs. destruct (u_evaluations u !! sol) as [e|] eqn:He; [|by intros [= <-]]. rewrite Hn, Hw. cbn.
    destruct (mapM (fun tc => (eval_result ∘ t_status) <$> e_testcases e !! tc) (us_testcases s)) as [a|] eqn:Ea; cbn; [|done].
    assert (Hj : mapM id a = mapM (fun tc => x ← shown u sol tc; eval_result (t_status x)) (us_testcases s)).
    { rewrite (mapM_join _ _ _ _ Ea). apply mapM_ext. intros tc. unfold shown. rewrite He. done. }
    rewrite Hj. destruct (mapM (fun tc => x ← shown u sol tc; eval_result (t_status x)) (us_testcases s)) as [results|]; by intros [= <-].
  Qed.
  Lemma not_matching sol c st : (forall s name, ut_subtasks t !! st = Some s -> us_name s = Some name -> wild (sc_pattern c) name = false) -> expected_check t wild u sol st c = [].
  Proof. intros H. unfold expected_check. destruct (ut_subtasks t !! st) as [s|] eqn:Hs; [|done]. destruct (u_evaluations u !! sol); [|done]. destruct (us_name s) as [name|] eqn:Hn; [|done]. by rewrite (H s name). Qed.

  (** The outcomes, one after the other *)
  Definition triples (l : list (path * sol_info)) : list (path * sol_check * nat) :=
    l ≫= fun s => si_checks s.2 ≫= fun c => matching_subtasks t order wild (sc_pattern c) ≫= fun st => [(s.1, c, st)].
  Definition outcomes_of (l : list (path * sol_check * nat)) : list check_outcome :=
    l ≫= fun x => match check_subtask t u x.1.1 x.1.2 x.2 with Some (Some o) => [o] | _ => [] end.
  Lemma triples_subtasks l x : x ∈ triples l -> is_Some (ut_subtasks t !! x.2).
  Proof using Horder.
    unfold triples. intros H. apply elem_of_list_bind in H as (s & H & _). apply elem_of_list_bind in H as (c & H & _).
    apply elem_of_list_bind in H as (st & H & Hst). apply elem_of_list_singleton in H as ->. cbn. unfold matching_subtasks in Hst.
    apply elem_of_list_In, filter_In in Hst as [Hst _]. apply elem_of_list_In in Hst. by apply in_order.
  Qed.
  Lemma run_checks : run_solution_checks t order wild sols u = Some (outcomes_of (triples sols)).
  Proof using Hu Ht Horder.
    unfold run_solution_checks. fold (triples sols).
    assert (H : forall l, (forall x, x ∈ l -> is_Some (ut_subtasks t !! x.2)) ->
      exists os, mapM (fun x : path * sol_check * nat => check_subtask t u x.1.1 x.1.2 x.2) l = Some os /\ omap id os = outcomes_of l).
    { induction l as [|x l IH]; intros Hl; [by exists []|]. destruct IH as (os & H1 & H2); [intros y Hy; apply Hl; by right|].
      destruct (check_subtask_some x.1.1 x.1.2 x.2) as [o Ho]; [apply Hl; by left|]. exists (o :: os). split; [cbn; rewrite Ho; cbn; by rewrite H1|].
      unfold outcomes_of in *. rewrite bind_cons, Ho, <- H2. by destruct o. }
    destruct (H (triples sols)) as (os & -> & Hos); [intros x Hx; by eapply triples_subtasks|]. cbn. by rewrite Hos.
  Qed.
  (** What a cell has *)
  Lemma cell_app os1 os2 sol st : cell_of (os1 ++ os2) sol st = cell_of os1 sol st ++ cell_of os2 sol st.
  Proof. unfold cell_of. by rewrite List.filter_app, fmap_app. Qed.
  Lemma outcomes_app l1 l2 : outcomes_of (l1 ++ l2) = outcomes_of l1 ++ outcomes_of l2.
  Proof. unfold outcomes_of. apply bind_app. Qed.
  Lemma cell_one sol c st sol' st' : cell_of (outcomes_of [(sol', c, st')]) sol st =
    if decide (sol' = sol /\ st' = st) then match said sol c st with Some x => [x] | None => [] end else [].
  Proof.
    unfold outcomes_of. cbn [mbind list_bind fst snd]. rewrite app_nil_r. unfold said, cell_of.
    destruct (decide (sol' = sol /\ st' = st)) as [[-> ->]|Hne].
    - destruct (check_subtask t u sol c st) as [[o|]|] eqn:E; try done. destruct (check_subtask_key _ _ _ _ E) as (H1 & H2 & H3).
      cbn. rewrite !bool_decide_true by done. done.
    - destruct (check_subtask t u sol' c st') as [[o|]|] eqn:E; try done. destruct (check_subtask_key _ _ _ _ E) as (H1 & H2 & H3).
      cbn. destruct (decide (sol' = sol)) as [->|Hs].
      + rewrite (bool_decide_false (co_subtask o = st)); [by rewrite andb_false_r|]. intros Hc. apply Hne. split; [done|]. congruence.
      + rewrite (bool_decide_false (co_solution o = sol)); [done|]. congruence.
  Qed.
  Lemma cell_other (l : list nat) sol c st sol' : (sol' <> sol \/ st ∉ l) -> cell_of (outcomes_of (l ≫= fun st' => [(sol', c, st')])) sol st = [].
  Proof.
    intros H. induction l as [|a l IH]; [done|]. rewrite bind_cons, outcomes_app, cell_app. rewrite IH.
    2: { destruct H as [H|H]; [by left|right]. intros Hin. apply H. by right. }
    rewrite app_nil_r, cell_one. rewrite decide_False; [done|]. intros [-> ->]. destruct H as [H|H]; [done|]. apply H. by left.
  Qed.
  Lemma cell_once (l : list nat) sol c st : NoDup l -> st ∈ l ->
    cell_of (outcomes_of (l ≫= fun st' => [(sol, c, st')])) sol st = match said sol c st with Some x => [x] | None => [] end.
  Proof.
    intros Hn Hin. induction Hn as [|a l Ha Hn IH]; [by apply elem_of_nil in Hin|]. rewrite bind_cons, outcomes_app, cell_app, cell_one.
    apply elem_of_cons in Hin as [->|Hin].
    - rewrite decide_True by done. rewrite cell_other by (by right). by rewrite app_nil_r.
    - rewrite decide_False; [by rewrite IH|]. intros [_ ->]. done.
  Qed.
  Lemma cell_check sol c st : is_Some (ut_subtasks t !! st) ->
    cell_of (outcomes_of (matching_subtasks t order wild (sc_pattern c) ≫= fun st' => [(sol, c, st')])) sol st = expected_check t wild u sol st c.
  Proof using Hu Ht Horder.
    intros [s Hs]. destruct (decide (st ∈ matching_subtasks t order wild (sc_pattern c))) as [Hin|Hin].
    - rewrite cell_once; [|by apply NoDup_ListNoDup, List.NoDup_filter, NoDup_ListNoDup, order_nodup|done].
      unfold matching_subtasks in Hin. apply elem_of_list_In, filter_In in Hin as [_ Hm]. rewrite Hs in Hm. destruct (us_name s) as [name|] eqn:Hn; [|done].
      symmetry. by eapply said_expected.
    - rewrite cell_other by (by right). symmetry. apply not_matching. intros s' name Hs' Hn. simplify_eq. apply not_true_is_false. intros Hw. apply Hin.
      unfold matching_subtasks. apply elem_of_list_In, filter_In. split; [apply elem_of_list_In, in_order; by eexists|]. by rewrite Hs, Hn.
  Qed.
  Lemma cell_checks sol (cs : list sol_check) st : is_Some (ut_subtasks t !! st) ->
    cell_of (outcomes_of (cs ≫= fun c => matching_subtasks t order wild (sc_pattern c) ≫= fun st' => [(sol, c, st')])) sol st = cs ≫= expected_check t wild u sol st.
  Proof using Hu Ht Horder.
    intros Hst. induction cs as [|c cs IH]; [done|]. rewrite !bind_cons, outcomes_app, cell_app, IH, cell_check by done. done.
  Qed.
  Lemma cell_checks_other sol sol' (cs : list sol_check) st : sol' <> sol ->
    cell_of (outcomes_of (cs ≫= fun c => matching_subtasks t order wild (sc_pattern c) ≫= fun st' => [(sol', c, st')])) sol st = [].
  Proof.
    intros Hst. induction cs as [|c cs IH]; [done|]. rewrite !bind_cons, outcomes_app, cell_app, IH, cell_other by (by left). done.
  Qed.
  Lemma cell_expected sol info st : u_solutions u !! sol = Some info -> is_Some (ut_subtasks t !! st) ->
    cell_of (outcomes_of (triples sols)) sol st = si_checks info ≫= expected_check t wild u sol st.
  Proof using Hu Ht Horder Hsols.
    intros Hsol Hst.
    assert (Hn : NoDup sols.*1) by (rewrite Hsols; apply NoDup_fst_map_to_list).
    assert (Hin : (sol, info) ∈ sols) by (rewrite Hsols; by apply elem_of_map_to_list).
    assert (Hother : forall l, sol ∉ l.*1 -> cell_of (outcomes_of (triples l)) sol st = []).
    { induction l as [|[s i] l IH]; intros Hl; [done|]. unfold triples in *. rewrite bind_cons, outcomes_app, cell_app. cbn [fst snd].
      rewrite fmap_cons in Hl. apply not_elem_of_cons in Hl as [Hl1 Hl2]. rewrite cell_checks_other, IH by (try done; by apply not_eq_sym). done. }
    clear Hsols. induction sols as [|[s i] l IH]; [by apply elem_of_nil in Hin|]. rewrite fmap_cons in Hn. apply NoDup_cons in Hn as [Hn1 Hn2]. cbn [fst] in Hn1.
    unfold triples. rewrite bind_cons, outcomes_app, cell_app. cbn [fst snd]. fold (triples l). apply elem_of_cons in Hin as [[= -> ->]|Hin].
    - rewrite cell_checks by done. rewrite Hother by done. apply app_nil_r.
    - rewrite cell_checks_other.
      2: { intros ->. apply Hn1. apply elem_of_list_fmap. by exists (sol, info). }
      apply IH; done.
  Qed.

  (** ** The table *)
  Definition rows : list path := List.filter (fun p => negb (is_symlink p)) (sorted_paths path_le (u_solutions u)).
  Notation table := (checks_table t path_le order wild is_symlink name_len sols sol_len u).
  Lemma table_some : (forall st s, ut_subtasks t !! st = Some s -> is_Some (us_name s)) -> numbered t -> is_Some table.
  Proof using Hu Ht Horder.
    intros Hnm Hnb. unfold checks_table. rewrite run_checks. cbn [mbind option_bind]. fold rows.
    match goal with |- context [mapM ?f order] => destruct (mapM_some f order) as [names Hnames] end.
    { intros st Hst. apply in_order in Hst as [s Hs]. rewrite Hs. cbn. by eapply Hnm. }
    rewrite Hnames. cbn [mbind option_bind].
    match goal with |- context [widen_all ?l ?ws] => destruct (proj2 (widen_all_some l ws)) as [w1 Hw1] end.
    { rewrite replicate_length. apply Forall_forall. intros [i w] Hin. cbn.
      apply elem_of_lookup_zip_with in Hin as (k & st & name & Heq & Hst & _). simplify_eq. apply elem_of_list_lookup_2, in_order, Hnb in Hst. lia. }
    rewrite Hw1. cbn [mbind option_bind]. destruct (widen_all_spec _ _ _ Hw1) as (Hl1 & _ & _). rewrite replicate_length in Hl1.
    match goal with |- context [widen_all ?l ?ws] => destruct (proj2 (widen_all_some l ws)) as [w2 Hw2] end.
    { rewrite Hl1. apply Forall_forall. intros [i w] Hin. cbn. apply elem_of_list_bind in Hin as (sol & Hin & _). apply elem_of_cons in Hin as [Heq|Hin]; [simplify_eq; lia|].
      apply elem_of_list_fmap in Hin as (st & Heq & Hst). simplify_eq. apply in_order, Hnb in Hst. lia. }
    rewrite Hw2. cbn [mbind option_bind]. destruct (widen_all_spec _ _ _ Hw2) as (Hl2 & _ & Hin2). rewrite Hl1 in Hl2.
    assert (Hw : forall st, is_Some (ut_subtasks t !! st) -> is_Some (w2 !! (st + 1)%nat)).
    { intros st Hst. apply lookup_lt_is_Some. apply Hnb in Hst. lia. }
    match goal with |- context [mapM ?f (sorted_subtasks (ut_subtasks t)) ≫= _] => destruct (mapM_some f (sorted_subtasks (ut_subtasks t))) as [hd Hhd] end.
    { intros st Hst. apply in_sorted in Hst as [s Hs]. rewrite Hs. cbn. destruct (Hw st) as [x ->]; [by eexists|]. cbn. by eapply Hnm. }
    rewrite Hhd. cbn [mbind option_bind].
    match goal with |- context [mapM ?f rows] => destruct (mapM_some f rows) as [ls Hls] end; [|rewrite Hls; by eexists].
    intros sol Hsol.
    match goal with |- context [mapM ?f (sorted_subtasks (ut_subtasks t)) ≫= _] => destruct (mapM_some f (sorted_subtasks (ut_subtasks t))) as [cells Hcells] end; [|rewrite Hcells; by eexists].
    intros st Hst. apply in_sorted in Hst. destruct (Hw st Hst) as [x Hx]. rewrite Hx. cbn [mbind option_bind].
    destruct (cell_of (outcomes_of (triples sols)) sol st) as [|c cs] eqn:Ec; [by eexists|].
    destruct (Hin2 (st + 1)%nat (cell_len (cell_of (outcomes_of (triples sols)) sol st))) as (y & Hy & Hle).
    { apply elem_of_list_bind. exists sol. split; [|done]. right. apply elem_of_list_fmap. exists st. split; [done|]. by apply in_order. }
    rewrite decide_True; [by eexists|]. simplify_eq. rewrite <- Ec, printed_cell. done.
  Qed.
  Lemma table_panics : (exists st, is_Some (ut_subtasks t !! st) /\ (size (ut_subtasks t) <= st)%nat) -> table = None.
  Proof using Hu Ht Horder.
    intros (st & Hst & Hsz). unfold checks_table. rewrite run_checks. cbn [mbind option_bind].
    destruct (mapM (fun st => s ← ut_subtasks t !! st; us_name s) order) as [names|] eqn:En; [|done]. cbn [mbind option_bind].
    match goal with |- context [widen_all ?l ?ws] => destruct (widen_all l ws) as [w|] eqn:Ew end; [|done]. exfalso.
    assert (H : is_Some (Some w)) by by eexists. rewrite <- Ew in H. apply widen_all_some in H. rewrite replicate_length in H.
    apply in_order in Hst. apply elem_of_list_lookup in Hst as [k Hk]. apply mapM_forall2 in En. destruct (Forall2_lookup_l _ _ _ _ _ En Hk) as (name & Hname & _).
    pose proof (proj1 (Forall_forall _ _) H ((st + 1)%nat, name_len name)) as Hlt. cbn in Hlt. feed pose proof Hlt as Hlt'; [|lia].
    apply elem_of_lookup_zip_with. by exists k, st, name.
  Qed.
  (** What it has *)
  Lemma table_ok header lines : table = Some (header, lines) ->
    Forall2 (fun st name => exists s, ut_subtasks t !! st = Some s /\ us_name s = Some name) (sorted_subtasks (ut_subtasks t)) header /\
    map fst lines = rows /\
    exists width : nat -> nat, Forall (fun line => forall info, u_solutions u !! line.1 = Some info ->
      Forall2 (fun st cell =>
        match cell with
        | None => (si_checks info ≫= expected_check t wild u line.1 st) = []
        | Some c => cc_checks c <> [] /\ cc_checks c = (si_checks info ≫= expected_check t wild u line.1 st) /\ (cell_len (cc_checks c) + cc_spaces c)%nat = width st
        end) (sorted_subtasks (ut_subtasks t)) line.2) lines.
  Proof using Hu Ht Horder Hsols.
    unfold checks_table. rewrite run_checks. cbn [mbind option_bind]. fold rows. intros H.
    apply bind_Some in H as (names & Hnames & H). apply bind_Some in H as (w1 & Hw1 & H). apply bind_Some in H as (w2 & Hw2 & H).
    apply bind_Some in H as (hd & Hhd & H). apply bind_Some in H as (ls & Hls & H). injection H as <- <-. split_and!.
    - apply mapM_forall2 in Hhd. eapply Forall2_impl; [exact Hhd|]. intros st name Hst. cbn in Hst. destruct (ut_subtasks t !! st) as [s|]; cbn in Hst; [|done].
      destruct (w2 !! _); cbn in Hst; [|done]. eauto.
    - rewrite (mapM_fst fst _ (fun x => x) _ _ Hls); [apply map_id|]. intros x y Hx. apply bind_Some in Hx as (cells & _ & Hx). by injection Hx as <-.
    - exists (fun st => default 0%nat (w2 !! (st + 1)%nat)). apply Forall_forall. intros [sol cells] Hin info Hinfo. cbn in Hinfo |- *.
      apply (mapM_in _ _ _ _ Hls) in Hin as (sol' & _ & Hc). apply bind_Some in Hc as (cells' & Hc & Heq). injection Heq as -> ->. apply mapM_forall2 in Hc.
      eapply Forall2_same_length_lookup_2; [by eapply Forall2_length|]. intros k st cell Hk Hcell.
      assert (Hst : is_Some (ut_subtasks t !! st)) by (apply in_sorted; by eapply elem_of_list_lookup_2).
      destruct (Forall2_lookup_l _ _ _ _ _ Hc Hk) as (cell' & Hcell' & Hv). simplify_eq. cbv beta in Hv. destruct (w2 !! (st + 1)%nat) as [w|] eqn:Ew; cbn [mbind option_bind] in Hv; [|done].
      rewrite (cell_expected sol info st) in Hv by done. destruct (si_checks info ≫= expected_check t wild u sol st) as [|c cs] eqn:Ec.
      + by injection Hv as <-.
      + destruct (decide _) as [Hle|]; [|done]. injection Hv as <-. cbn [cc_checks cc_spaces]. split_and!; [done|done|]. rewrite printed_cell in *. simpl default. lia.
  Qed.
End checks.
