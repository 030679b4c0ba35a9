(** * SanityProps: property C75, what the sanity checks say of the subtasks and of the solutions *)
From Coq Require Import Ascii String.
From Verif Require Import SanityModel SanitySpec SanityProofs SanityProofs2 SanityProofs3.
From stdpp Require Import base list gmap sorting.

(** ** The names *)
(** The subtasks without a name are reported in one diagnostic, sorted, each once; no diagnostic if all have a name, or if
    all are default subtasks. *)
Theorem C75_missing_names : forall sts, sn_ok sts ->
  (missing_subtask_names sts = [] <-> (forall st s, (st, s) ∈ sts -> ss_default s = true) \/ (forall st s, (st, s) ∈ sts -> named s)) /\
  (forall d, d ∈ missing_subtask_names sts -> exists l, missing_subtask_names sts = [DMissingNames l] /\ StronglySorted lt l.*1 /\
     forall st score, (st, score) ∈ l <-> exists s, (st, s) ∈ sts /\ ss_name s = None /\ ss_score s = score).
Proof.
  intros sts Hok. unfold missing_subtask_names. set (f := fun id : nat => _ : option (nat * f64)). assert (Hf : forall x y, f x = Some y -> y.1 = x).
  { intros x y. unfold f. destruct (_ !! x) as [s|]; [|done]. destruct (ss_name s); [done|]. by intros [= <-]. }
  assert (Hm : forall st score, (st, score) ∈ omap f (sorted_ids sts) <-> exists s, (st, s) ∈ sts /\ ss_name s = None /\ ss_score s = score).
  { intros st score. rewrite elem_of_list_omap. split.
    - intros (x & Hx & E). pose proof (Hf _ _ E) as Ex. cbn in Ex. subst x. unfold f in E. destruct (_ !! st) as [s|] eqn:Es; [|done].
      apply list_to_map_Some in Es; [|done]. destruct (ss_name s) eqn:En; [done|]. injection E as <-. by exists s.
    - intros (s & Hs & En & <-). exists st. split; [apply elem_of_sorted_ids; by exists s|]. unfold f. apply list_to_map_Some in Hs; [|done]. rewrite Hs, En. done. }
  assert (Hs : StronglySorted lt (omap f (sorted_ids sts)).*1).
  { apply sorted_strict; [apply omap_sorted; [done|apply sorted_ids_sorted]|apply omap_NoDup; [done|by apply sorted_ids_NoDup]]. }
  clearbody f. destruct (forallb _ sts) eqn:E.
  - split.
    + split; [|done]. intros _. left. intros st s H. rewrite forallb_forall in E. apply (E (st, s)). by apply elem_of_list_In.
    + intros d Hd. by apply elem_of_nil in Hd.
  - assert (Hd : ~ forall st s, (st, s) ∈ sts -> ss_default s = true).
    { intros H. rewrite (proj2 (forallb_forall _ _)) in E; [done|]. intros [st s] Hin. apply (H st s). by apply elem_of_list_In. }
    destruct (omap f (sorted_ids sts)) as [|x l] eqn:El.
    + split; [|intros d Hin; by apply elem_of_nil in Hin]. split; [|done]. intros _. right. intros st s Hin. unfold named. destruct (ss_name s) as [n|] eqn:En; [by eexists|].
      exfalso. apply (not_elem_of_nil (st, ss_score s)). apply Hm. by exists s.
    + split.
      * split; [done|]. intros [H|H]; [done|]. exfalso. destruct x as [st score]. destruct (proj1 (Hm st score)) as (s & H1 & H2 & _); [left|].
        destruct (H st s H1) as [n Hn]. congruence.
      * intros d Hin. by exists (x :: l).
Qed.
Print Assumptions C75_missing_names.

(** A check whose pattern matches no subtask is an error, one for each such check, in order; the names shown are those of
    the subtasks. *)
Theorem C75_invalid_names : forall wild sts sols, sn_ok sts ->
  (exists valid, invalid_subtask_name wild sts sols =
    map (fun x : sn_solution * sol_check => DInvalidName (sc_pattern x.2) (so_path x.1) valid)
      (List.filter (fun x => negb (existsb (fun y : nat * sn_subtask => match ss_name y.2 with Some n => wild (sc_pattern x.2) n | None => false end) sts))
        (sols ≫= fun s => map (pair s) (so_checks s))) /\
    forall n, n ∈ valid <-> exists st s, (st, s) ∈ sts /\ ss_name s = Some n) /\
  (invalid_subtask_name wild sts sols = [] <-> forall s c, s ∈ sols -> c ∈ so_checks s -> exists st, about wild sts c st).
Proof.
  intros wild sts sols Hok.
  assert (He : forall c, existsb (fun y : nat * sn_subtask => match ss_name y.2 with Some n => wild (sc_pattern c) n | None => false end) sts = true <-> exists st, about wild sts c st).
  { intros c. rewrite existsb_exists. split.
    - intros ([st s] & Hin & H). cbn in H. destruct (ss_name s) as [n|] eqn:En; [|done]. exists st, s, n. split; [by apply elem_of_list_In|done].
    - intros (st & s & n & Hin & En & H). exists (st, s). split; [by apply elem_of_list_In|]. cbn. by rewrite En. }
  assert (Hm : forall c, sn_matching wild sts (sc_pattern c) = [] <-> existsb (fun y : nat * sn_subtask => match ss_name y.2 with Some n => wild (sc_pattern c) n | None => false end) sts = false).
  { intros c. rewrite <- not_true_iff_false, He. split.
    - intros H (st & Hst). apply about_matching in Hst. rewrite H in Hst. by apply elem_of_nil in Hst.
    - intros H. destruct (sn_matching wild sts (sc_pattern c)) as [|st l] eqn:E; [done|]. destruct H. exists st. apply about_matching. rewrite E. left. }
  split.
  - exists (valid_names sts). split.
    + unfold invalid_subtask_name. induction sols as [|s sols IH]; [done|]. rewrite !bind_cons. rewrite List.filter_app, map_app. f_equal; [|exact IH].
      clear IH. induction (so_checks s) as [|c cs IH]; [done|]. rewrite bind_cons. cbn [map List.filter fst snd]. rewrite IH.
      destruct (existsb _ sts) eqn:E; cbn [negb].
      * destruct (sn_matching _ _ _) eqn:E'; [|done]. apply Hm in E'. congruence.
      * apply Hm in E. by rewrite E.
    + intros n. unfold valid_names. rewrite elem_of_list_omap. split.
      * intros (st & Hst & E). destruct (_ !! st) as [s|] eqn:Es; [|done]. apply list_to_map_Some in Es; [|done]. by exists st, s.
      * intros (st & s & Hin & En). exists st. split; [apply elem_of_sorted_ids; by exists s|]. apply list_to_map_Some in Hin; [|done]. by rewrite Hin.
  - split.
    + intros H s c Hs Hc. destruct (existsb (fun y : nat * sn_subtask => match ss_name y.2 with Some n => wild (sc_pattern c) n | None => false end) sts) eqn:E; [by apply He|].
      apply Hm in E. exfalso. assert (DInvalidName (sc_pattern c) (so_path s) (valid_names sts) ∈ invalid_subtask_name wild sts sols) as Hin; [|rewrite H in Hin; by apply elem_of_nil in Hin].
      unfold invalid_subtask_name. apply elem_of_list_bind. exists s. split; [|done]. apply elem_of_list_bind. exists c. split; [|done]. rewrite E. left.
    + intros H. destruct (invalid_subtask_name wild sts sols) as [|d l] eqn:E; [done|]. assert (d ∈ invalid_subtask_name wild sts sols) as Hin by (rewrite E; left).
      unfold invalid_subtask_name in Hin. apply elem_of_list_bind in Hin as (s & Hin & Hs). apply elem_of_list_bind in Hin as (c & Hin & Hc).
      destruct (sn_matching _ _ _) eqn:E'; [|by apply elem_of_nil in Hin]. apply Hm in E'. destruct (H s c Hs Hc) as (st & Hst). rewrite (proj2 (He c)) in E'; [done|]. by exists st.
Qed.
Print Assumptions C75_invalid_names.

(** The subtasks whose description is not their name are reported, each once. *)
Theorem C75_deprecated : forall sts, sn_ok sts ->
  exists ids, deprecated_description sts = map DDeprecated ids /\ NoDup ids /\
    forall st, st ∈ ids <-> exists s name description, (st, s) ∈ sts /\ ss_name s = Some name /\ ss_description s = Some description /\ name <> description.
Proof.
  intros sts Hok. unfold sn_ok in Hok. unfold deprecated_description. set (f := fun x : nat * sn_subtask => _ : option sn_diag). induction sts as [|[st s] sts IH].
  - exists []. split; [done|]. split; [constructor|]. intros st. split; [intros H; by apply elem_of_nil in H|]. intros (s & n & d & H & _). by apply elem_of_nil in H.
  - cbn in Hok. apply NoDup_cons in Hok as [Hst Hok]. destruct (IH Hok) as (ids & E & HN & Hids).
    assert (Hn : st ∉ ids). { intros H. apply Hids in H as (s' & n & d & H & _). apply Hst, elem_of_list_fmap. by exists (st, s'). }
    change (omap f ((st, s) :: sts)) with (match f (st, s) with Some y => y :: omap f sts | None => omap f sts end). rewrite E. clear E IH. unfold f. cbn [fst snd].
    destruct (ss_name s) as [n|] eqn:En; [destruct (ss_description s) as [d|] eqn:Ed; [destruct (decide (n = d)) as [->|Hd]|]|].
    all: try (exists ids; split; [done|]; split; [done|]; intros x; rewrite Hids; split;
      [intros (s' & n' & d' & H & H'); exists s', n', d'; split; [by right|done]
      |intros (s' & n' & d' & H & E1 & E2 & E3); apply elem_of_cons in H as [[= -> ->]|H]; [congruence|by exists s', n', d']]; done).
    exists (st :: ids). split; [done|]. split; [by constructor|]. intros x. rewrite elem_of_cons, Hids. split.
    + intros [->|(s' & n' & d' & H & H')]; [exists s, n, d; split; [left|done]|exists s', n', d'; split; [by right|done]].
    + intros (s' & n' & d' & H & H'). apply elem_of_cons in H as [[= -> ->]|H]; [by left|]. right. by exists s', n', d'.
Qed.
Print Assumptions C75_deprecated.

(** If all the subtasks have a name, the solutions without checks that are not symlinks are reported, in one diagnostic. *)
Theorem C75_no_checks : forall sts sols,
  let bad s := so_checks s = [] /\ so_symlink s = false in
  (solutions_with_no_checks sts sols = [] <-> (exists st s, (st, s) ∈ sts /\ ss_name s = None) \/ (forall s, s ∈ sols -> ~ bad s)) /\
  (forall d, d ∈ solutions_with_no_checks sts sols -> exists l, solutions_with_no_checks sts sols = [DNoChecks l] /\
     forall p, p ∈ l <-> exists s, s ∈ sols /\ bad s /\ so_path s = p).
Proof.
  intros sts sols bad. unfold solutions_with_no_checks. set (f := fun s : sn_solution => _ : option text).
  assert (Hm : forall p, p ∈ omap f sols <-> exists s, s ∈ sols /\ bad s /\ so_path s = p).
  { intros p. rewrite elem_of_list_omap. split.
    - intros (s & Hs & E). exists s. split; [done|]. unfold f in E. unfold bad. destruct (so_checks s); [|done]. destruct (so_symlink s); [done|]. by injection E as ->.
    - intros (s & Hs & [E1 E2] & <-). exists s. split; [done|]. unfold f. by rewrite E1, E2. }
  clearbody f. destruct (existsb _ sts) eqn:E.
  - split; [|intros d Hd; by apply elem_of_nil in Hd]. split; [|done]. intros _. left. apply existsb_exists in E as ([st s] & Hin & H). exists st, s. split; [by apply elem_of_list_In|].
    cbn in H. by destruct (ss_name s).
  - assert (Hn : ~ exists st s, (st, s) ∈ sts /\ ss_name s = None).
    { intros (st & s & Hin & En). apply not_true_iff_false in E. apply E, existsb_exists. exists (st, s). split; [by apply elem_of_list_In|]. cbn. by rewrite En. }
    destruct (omap f sols) as [|p l] eqn:El.
    + split; [|intros d Hd; by apply elem_of_nil in Hd]. split; [|done]. intros _. right. intros s Hs Hb. apply (not_elem_of_nil (so_path s)), Hm. by exists s.
    + split; [|intros d _; by exists (p :: l)]. split; [done|]. intros [H|H]; [done|]. exfalso. destruct (proj1 (Hm p)) as (s & Hs & Hb & _); [left|]. by apply (H s).
Qed.
Print Assumptions C75_no_checks.

(** ** The sum of the scores *)
(** With integer scores the error is given exactly when the sum is not 100. *)
Theorem C75_max_score_partial : forall sts zs, integer_scores sts zs -> task_max_score sts = [] <-> foldr Z.add 0%Z zs = 100%Z.
Proof. exact task_max_score_Z. Qed.
Print Assumptions C75_max_score_partial.
(** Full statement: the error does not depend on the iteration order of the subtasks.  Refuted: 13.8 + 58.3 + 27.9 is 100, 58.3 + 27.9 + 13.8 is not. *)
Definition decimals : sn_subtasks :=
  [(0, SnSubtask None None (S754_finite false 7768709357214106 (-49)) false);
   (1, SnSubtask None None (S754_finite false 8204995571115622 (-47)) false);
   (2, SnSubtask None None (S754_finite false 7853151850227302 (-48)) false)].
Definition decimals' : sn_subtasks := drop 1 decimals ++ take 1 decimals.
Theorem C75_max_score_order_refuted : ~ forall sts sts', sn_ok sts -> Forall (fun x => f64_valid (ss_score x.2) = true) sts -> sts ≡ₚ sts' ->
  task_max_score sts = [] -> task_max_score sts' = [].
Proof.
  intros H. specialize (H decimals decimals'). assert (task_max_score decimals' <> []) as Hn by (vm_compute; done). apply Hn, H.
  - apply (bool_decide_unpack _). vm_compute. exact Logic.I.
  - repeat constructor.
  - unfold decimals'. rewrite <- (take_drop 1 decimals) at 1. apply Permutation_app_comm.
  - vm_compute. reflexivity.
Qed.
Print Assumptions C75_max_score_order_refuted.

(** ** The subtasks that cannot be told apart *)
Section dependencies.
  Context (wild : text -> text -> bool) (sts : sn_subtasks) (sols : list sn_solution).
  Lemma irreflexive x : (x, x) ∉ dependencies wild sts sols.
  Proof. rewrite dependencies_spec. by intros (_ & _ & H & _). Qed.
  Lemma some_check_spec : existsb (fun s => match so_checks s with [] => false | _ => true end) sols = true <-> some_check sols.
  Proof.
    rewrite existsb_exists. unfold some_check. split; intros (s & Hs & H); exists s; (split; [by apply elem_of_list_In|]); by destruct (so_checks s).
  Qed.
  Lemma mutual_alike a b : (b ∈ non_zero sts /\ mutual (dependencies wild sts sols) a b = true) <-> alike wild sts sols a b.
  Proof.
    rewrite mutual_spec, !dependencies_spec. unfold alike. split; [tauto|]. intros [H1 H2]. split; [|done]. apply elem_of_non_zero. apply H1.
  Qed.
End dependencies.
(** A group is reported if and only if it is made of a subtask [a] and of those that are like it, all after [a]; each group once. *)
Theorem C75_same : forall wild sts sols, sn_ok sts ->
  NoDup (List.filter (fun d => match d with DSameSolutions _ => true | _ => false end) (subtask_dependencies wild sts sols)) /\
  forall g, DSameSolutions g ∈ subtask_dependencies wild sts sols <->
    some_check sols /\ StronglySorted lt g /\
    exists a, (forall b, b ∈ g <-> b = a \/ alike wild sts sols a b) /\ (forall b, alike wild sts sols a b -> a < b) /\ exists b, alike wild sts sols a b.
Proof.
  intros wild sts sols Hok. pose proof (non_zero_NoDup sts Hok) as HN. pose proof (irreflexive wild sts sols) as Hirr. pose proof (some_check_spec sols) as Hsc.
  unfold subtask_dependencies. destruct (existsb _ sols).
  - set (rest := match to_swap _ _ with [] => _ | _ => _ end).
    assert (Hr : forall d, d ∈ rest -> exists l, d = DNotInOrder l).
    { intros d. unfold rest. destruct (to_swap _ _) as [|p l]; intros H; [by apply elem_of_nil in H|]. apply elem_of_list_singleton in H as ->. by eexists. }
    split.
    + rewrite List.filter_app.
      assert (List.filter (fun d => match d with DSameSolutions _ => true | _ => false end) rest = []) as ->.
      { destruct (List.filter _ rest) as [|d l] eqn:E; [done|]. assert (d ∈ d :: l) as Hd by left. rewrite <- E in Hd. apply elem_of_lfilter in Hd as [Hd Ht].
        apply Hr in Hd as [? ->]. done. }
      rewrite app_nil_r. by apply filter_NoDup, same_solutions_NoDup.
    + intros g. rewrite elem_of_app. split.
      * intros [H|H]; [|by apply Hr in H as [? ?]]. apply same_solutions_spec in H as (a & Ha & Hs & Hg & Hlt & b & Hb); [|done|done].
        split; [by apply Hsc|]. split; [done|]. exists a. split; [intros x; by rewrite Hg, mutual_alike|]. split.
        -- intros x Hx. apply mutual_alike in Hx as [H1 H2]. by apply Hlt.
        -- exists b. by apply mutual_alike.
      * intros (_ & Hs & a & Hg & Hlt & b & Hb). left. apply same_solutions_spec; [done|done|]. exists a. split; [apply elem_of_non_zero, Hb|]. split; [done|].
        split; [intros x; by rewrite Hg, mutual_alike|]. split.
        -- intros x H1 H2. apply Hlt. by apply mutual_alike.
        -- exists b. by apply mutual_alike.
  - split; [constructor|]. intros g. split; [intros H; by apply elem_of_nil in H|]. intros (H & _). apply Hsc in H. done.
Qed.
Print Assumptions C75_same.
(** What it means: in a group that is reported, no solution that has a check on both the first subtask and another one gets
    points on one of them only: either it solves both or it gets no point on both. *)
Theorem C75_same_meaning : forall wild sts sols a g b s ka kb, sn_ok sts -> DSameSolutions (a :: g) ∈ subtask_dependencies wild sts sols -> b ∈ g ->
  s ∈ sols -> declares wild sts s a ka -> declares wild sts s b kb ->
  (ka = KAccepted /\ kb = KAccepted) \/ (ka <> KAccepted /\ ka <> KPartialScore /\ kb <> KAccepted /\ kb <> KPartialScore).
Proof.
  intros wild sts sols a g b s ka kb Hok Hin Hb Hs Ha Hkb. apply C75_same in Hin as (_ & Hso & a' & Hg & Hlt & _); [|done].
  assert (a' = a) as ->.
  { apply StronglySorted_inv in Hso as [_ Hso]. rewrite Forall_forall in Hso. destruct (proj1 (Hg a)) as [->|Hal]; [left|done|]. specialize (Hlt a Hal).
    assert (a' ∈ a :: g) as Ha' by (apply Hg; by left). apply elem_of_cons in Ha' as [->|Ha']; [done|]. specialize (Hso a' Ha'). lia. }
  destruct (proj1 (Hg b)) as [->|[[_ (_ & _ & H1)] [_ (_ & _ & H2)]]]; [by right| |].
  { apply StronglySorted_inv in Hso as [_ Hso]. rewrite Forall_forall in Hso. specialize (Hso a Hb). lia. }
  specialize (H1 s Hs). specialize (H2 s Hs). unfold shows in H1, H2.
  assert (ka = KAccepted \/ ka = KPartialScore -> kb = KAccepted) as Hab.
  { intros Hk. destruct kb; try done; exfalso; apply H1; exists ka; eexists; (split; [exact Ha|]); (split; [exact Hkb|]); done. }
  assert (kb = KAccepted \/ kb = KPartialScore -> ka = KAccepted) as Hba.
  { intros Hk. destruct ka; try done; exfalso; apply H2; exists kb; eexists; (split; [exact Hkb|]); (split; [exact Ha|]); done. }
  destruct ka, kb; try (left; split; done); try (right; done); try (specialize (Hab ltac:(auto)); done); try (specialize (Hba ltac:(auto)); done).
Qed.
Print Assumptions C75_same_meaning.
(** If every solution says something of every subtask with points or of none, being alike is an equivalence: two subtasks
    are alike if and only if they are together in a reported group, and each subtask is in at most one group. *)
Definition thorough (wild : text -> text -> bool) (sts : sn_subtasks) (sols : list sn_solution) : Prop :=
  forall s a b, s ∈ sols -> gives_points sts a -> gives_points sts b -> (exists k, declares wild sts s a k) -> exists k, declares wild sts s b k.
Lemma alike_trans wild sts sols a b c : thorough wild sts sols -> alike wild sts sols a b -> alike wild sts sols b c -> a <> c -> alike wild sts sols a c.
Proof.
  intros HT [(Ga & Gb & _ & H1) (_ & _ & _ & H2)] [(_ & Gc & _ & H3) (_ & _ & _ & H4)] Hac.
  split; (split; [done|]); (split; [done|]); (split; [done|]); intros s Hs (k1 & k2 & D1 & D2 & Hk1 & Hk2).
  - destruct (HT s a b Hs Ga Gb) as [kb Hb]; [by eexists|]. destruct (decide (kb = KAccepted)) as [->|Hkb].
    + apply (H3 s Hs). exists KAccepted, k2. split; [done|]. split; [done|]. split; [by left|done].
    + apply (H1 s Hs). by exists k1, kb.
  - destruct (HT s c b Hs Gc Gb) as [kb Hb]; [by eexists|]. destruct (decide (kb = KAccepted)) as [->|Hkb].
    + apply (H2 s Hs). exists KAccepted, k2. split; [done|]. split; [done|]. split; [by left|done].
    + apply (H4 s Hs). by exists k1, kb.
Qed.
Lemma alike_sym wild sts sols a b : alike wild sts sols a b -> alike wild sts sols b a.
Proof. by intros [H1 H2]. Qed.
Theorem C75_same_complete_partial : forall wild sts sols, sn_ok sts -> some_check sols -> thorough wild sts sols ->
  (forall a b, a <> b -> alike wild sts sols a b <-> exists g, DSameSolutions g ∈ subtask_dependencies wild sts sols /\ a ∈ g /\ b ∈ g) /\
  (forall g g' a, DSameSolutions g ∈ subtask_dependencies wild sts sols -> DSameSolutions g' ∈ subtask_dependencies wild sts sols -> a ∈ g -> a ∈ g' -> g = g').
Proof.
  intros wild sts sols Hok Hsc HT. pose proof (C75_same wild sts sols Hok) as [_ HS]. split.
  - intros a b Hab. split.
    + intros Hal. set (Q := fun x => x = a \/ alike wild sts sols a x).
      assert (HD : forall x, Decision (Q x)).
      { intros x. unfold Q. destruct (decide (x = a)); [by left; left|]. destruct (decide (x ∈ non_zero sts)) as [Hn|Hn].
        - destruct (mutual (dependencies wild sts sols) a x) eqn:E; [left; right; by apply mutual_alike|]. right. intros [?|H]; [done|]. apply mutual_alike in H as [_ H]. congruence.
        - right. intros [?|H]; [done|]. apply mutual_alike in H as [H _]. done. }
      assert (exists m, Q m /\ forall x, Q x -> m <= x) as (m & Hm & Hmin).
      { assert (forall n, Q n -> exists m, Q m /\ forall x, Q x -> m <= x) as H; [|apply (H a); by left]. intros n. induction (lt_wf n) as [n _ IH]. intros Hn.
        destruct (decide (Exists Q (seq 0 n))) as [He|He].
        - apply Exists_exists in He as (x & Hx & Qx). apply elem_of_seq in Hx. apply (IH x); [lia|done].
        - exists n. split; [done|]. intros x Qx. destruct (decide (n <= x)); [done|]. destruct He. apply Exists_exists. exists x. split; [apply elem_of_seq; lia|done]. }
      assert (HQ : forall x, Q x <-> x = m \/ alike wild sts sols m x).
      { intros x. unfold Q in Hm |- *. destruct Hm as [->|Hm]; [done|]. split.
        - intros [->|Hx]; [right; by apply alike_sym|]. destruct (decide (x = m)); [by left|]. right. apply (alike_trans _ _ _ m a x); [done|by apply alike_sym|done|done].
        - intros [->|Hx]; [by right|]. destruct (decide (x = a)); [by left|]. right. by apply (alike_trans _ _ _ a m x). }
      exists (merge_sort le (List.filter (fun x => bool_decide (Q x)) (seq 0 (S (a + foldr Nat.max 0 (non_zero sts)))))).
      assert (Hin : forall x, x ∈ merge_sort le (List.filter (fun x => bool_decide (Q x)) (seq 0 (S (a + foldr Nat.max 0 (non_zero sts))))) <-> Q x).
      { intros x. rewrite merge_sort_Permutation, elem_of_lfilter, bool_decide_eq_true, elem_of_seq. split; [by intros [_ ?]|]. intros Hx. split; [|done].
        destruct Hx as [->|Hx]; [lia|]. apply mutual_alike in Hx as [Hx _]. assert (x <= foldr Nat.max 0 (non_zero sts)); [|lia]. clear -Hx.
        induction (non_zero sts) as [|y l IH]; [by apply elem_of_nil in Hx|]. cbn. apply elem_of_cons in Hx as [->|Hx]; [lia|]. specialize (IH Hx). lia. }
      split; [|rewrite !Hin; unfold Q; split; [by left|by right]]. apply HS. split; [done|]. split.
      { apply sorted_strict; [apply StronglySorted_merge_sort; [intros x y z; lia|intros x y; lia]|]. rewrite merge_sort_Permutation. apply filter_NoDup, NoDup_ListNoDup, seq_NoDup. }
      exists m. split; [intros x; by rewrite Hin, HQ|]. split.
      * intros x Hx. assert (m <= x) by (apply Hmin, HQ; by right). destruct Hx as [(_ & _ & Hne & _) _]. lia.
      * destruct (decide (m = a)) as [->|Hma]; [by exists b|]. exists a. destruct Hm as [?|Hm]; [done|by apply alike_sym].
    + intros (g & Hg & Ha & Hb). apply HS in Hg as (_ & _ & m & Hg & _ & _). apply Hg in Ha, Hb. destruct Ha as [->|Ha], Hb as [->|Hb]; try done; [by apply alike_sym|].
      apply (alike_trans _ _ _ a m b); [done|by apply alike_sym|done|done].
  - intros g g' a Hg Hg' Ha Ha'. apply HS in Hg as (_ & Hs & m & Hg & Hlt & _). apply HS in Hg' as (_ & Hs' & m' & Hg' & Hlt' & _).
    assert (Hmm : m = m' \/ alike wild sts sols m m').
    { apply Hg in Ha. apply Hg' in Ha'. destruct (decide (m = m')) as [->|Hne]; [by left|]. right. destruct Ha as [->|Ha], Ha' as [->|Ha']; try done; [by apply alike_sym|].
      apply (alike_trans _ _ _ m a m'); [done|done|by apply alike_sym|done]. }
    assert (m = m') as <-. { destruct Hmm as [->|Hmm]; [done|]. pose proof (Hlt _ Hmm). pose proof (Hlt' _ (alike_sym _ _ _ _ _ Hmm)). lia. }
    assert (AntiSymm eq lt) by (intros x y H1 H2; lia). apply (StronglySorted_unique lt); [done|done|]. apply NoDup_Permutation.
    + clear -Hs. induction Hs as [|x l Hl IH Hx]; constructor; [|done]. intros H. rewrite Forall_forall in Hx. specialize (Hx x H). lia.
    + clear -Hs'. induction Hs' as [|x l Hl IH Hx]; constructor; [|done]. intros H. rewrite Forall_forall in Hx. specialize (Hx x H). lia.
    + intros x. by rewrite Hg, Hg'.
Qed.
Print Assumptions C75_same_complete_partial.

(** ** The order of difficulty *)
(** At most one warning; it names, each once, exactly the pairs [a < b] such that no solution shows that [a] can be solved
    without [b], and one shows that [b] can be solved without [a]. *)
Theorem C75_order : forall wild sts sols, sn_ok sts ->
  (forall l, DNotInOrder l ∈ subtask_dependencies wild sts sols -> l <> [] /\ NoDup l /\
     List.filter (fun d => match d with DNotInOrder _ => true | _ => false end) (subtask_dependencies wild sts sols) = [DNotInOrder l]) /\
  forall a b, (exists l, DNotInOrder l ∈ subtask_dependencies wild sts sols /\ (a, b) ∈ l) <->
    gives_points sts a /\ gives_points sts b /\ a < b /\ (forall s, s ∈ sols -> ~ shows wild sts s a b) /\ (exists s, s ∈ sols /\ shows wild sts s b a).
Proof.
  intros wild sts sols Hok. pose proof (non_zero_NoDup sts Hok) as HN. pose proof (some_check_spec sols) as Hsc.
  assert (HP : forall a b, (a, b) ∈ to_swap (dependencies wild sts sols) (non_zero sts) <->
    gives_points sts a /\ gives_points sts b /\ a < b /\ (forall s, s ∈ sols -> ~ shows wild sts s a b) /\ (exists s, s ∈ sols /\ shows wild sts s b a)).
  { intros a b. rewrite elem_of_to_swap, !elem_of_non_zero, !dependencies_spec. unfold implied. split.
    - intros (Ga & Gb & Hlt & (_ & _ & _ & H1) & H2). split; [done|]. split; [done|]. split; [done|]. split; [done|].
      assert (~ Forall (fun s => ~ shows wild sts s b a) sols) as Hf.
      { intros Hf. apply H2. split; [done|]. split; [done|]. split; [lia|]. by apply Forall_forall. }
      apply not_Forall_Exists in Hf; [|intros s; destruct (separated (score_range wild sts s) b a) eqn:E; [right; apply separated_spec in E; tauto|left; rewrite <- separated_spec; congruence]].
      apply Exists_exists in Hf as (s & Hs & Hn). exists s. split; [done|]. cbv beta in Hn. destruct (separated (score_range wild sts s) b a) eqn:E; [by apply separated_spec|].
      destruct Hn. rewrite <- separated_spec. congruence.
    - intros (Ga & Gb & Hlt & H1 & s & Hs & H2). split; [done|]. split; [done|]. split; [done|]. split; [split; [done|]; split; [done|]; split; [lia|done]|].
      intros (_ & _ & _ & H). by apply (H s). }
  unfold subtask_dependencies. destruct (existsb _ sols).
  - pose proof (to_swap_NoDup (dependencies wild sts sols) (non_zero sts) HN) as HNs. destruct (to_swap _ _) as [|p l] eqn:E.
    + split.
      * intros l H. rewrite app_nil_r in H. by apply same_solutions_shape in H as [? ?].
      * intros a b. rewrite <- HP. split; [|intros H; by apply elem_of_nil in H]. intros (l & H & _). rewrite app_nil_r in H. by apply same_solutions_shape in H as [? ?].
    + assert (Hl : forall l', DNotInOrder l' ∈ same_solutions (dependencies wild sts sols) (non_zero sts) ++ [DNotInOrder (p :: l)] <-> l' = p :: l).
      { intros l'. rewrite elem_of_app, elem_of_list_singleton. split; [|by intros ->; right]. intros [H|H]; [by apply same_solutions_shape in H as [? ?]|by injection H]. }
      split.
      * intros l' H. apply Hl in H as ->. split; [done|]. split; [done|]. rewrite List.filter_app. cbn [List.filter].
        destruct (List.filter _ (same_solutions _ _)) as [|d r] eqn:Ef; [done|]. assert (d ∈ d :: r) as Hd by left. rewrite <- Ef in Hd. apply elem_of_lfilter in Hd as [Hd Ht].
        apply same_solutions_shape in Hd as [? ->]. done.
      * intros a b. rewrite <- HP. split; [intros (l' & H & Hin); by apply Hl in H as ->|]. intros H. exists (p :: l). split; [by apply Hl|done].
  - split; [intros l H; by apply elem_of_nil in H|]. intros a b. split; [intros (l & H & _); by apply elem_of_nil in H|].
    intros (_ & _ & _ & _ & s & Hs & (k & _ & (bf & c & af & E & _) & _)). assert (some_check sols) as H; [|by apply Hsc in H]. exists s. split; [done|]. rewrite E. by destruct bf.
Qed.
Print Assumptions C75_order.

(** ** The iteration order of the map *)
Section permuted.
  Context (wild : text -> text -> bool) (sts sts' : sn_subtasks) (HP : sts ≡ₚ sts').
  Lemma perm_about c st : about wild sts c st <-> about wild sts' c st.
  Proof using HP. unfold about. by setoid_rewrite HP. Qed.
  Lemma perm_points st : gives_points sts st <-> gives_points sts' st.
  Proof using HP. unfold gives_points. by setoid_rewrite HP. Qed.
  Lemma perm_declares s st k : declares wild sts s st k <-> declares wild sts' s st k.
  Proof using HP. unfold declares. by setoid_rewrite perm_about. Qed.
  Lemma perm_shows s a b : shows wild sts s a b <-> shows wild sts' s a b.
  Proof using HP. unfold shows. by setoid_rewrite perm_declares. Qed.
  Lemma perm_alike sols a b : alike wild sts sols a b <-> alike wild sts' sols a b.
  Proof using HP. unfold alike, implied. setoid_rewrite perm_shows. by rewrite !perm_points. Qed.
End permuted.
(** What is reported does not depend on the iteration order of the map of the subtasks. *)
Theorem C75_iteration_order : forall wild sts sts' sols, sn_ok sts -> sts ≡ₚ sts' ->
  (forall g, DSameSolutions g ∈ subtask_dependencies wild sts sols <-> DSameSolutions g ∈ subtask_dependencies wild sts' sols) /\
  (forall a b, (exists l, DNotInOrder l ∈ subtask_dependencies wild sts sols /\ (a, b) ∈ l) <-> (exists l, DNotInOrder l ∈ subtask_dependencies wild sts' sols /\ (a, b) ∈ l)) /\
  missing_subtask_names sts = missing_subtask_names sts' /\
  invalid_subtask_name wild sts sols = invalid_subtask_name wild sts' sols /\
  solutions_with_no_checks sts sols = solutions_with_no_checks sts' sols /\
  deprecated_description sts ≡ₚ deprecated_description sts'.
Proof.
  intros wild sts sts' sols Hok HP. assert (Hok' : sn_ok sts') by (unfold sn_ok; by rewrite <- HP). pose proof (perm_alike wild sts sts' HP) as HA.
  assert (Hids : sorted_ids sts = sorted_ids sts').
  { apply (StronglySorted_unique le); [apply sorted_ids_sorted|apply sorted_ids_sorted|]. unfold sorted_ids. by rewrite !merge_sort_Permutation, HP. }
  assert (Hmap : list_to_map (M := gmap nat sn_subtask) sts = list_to_map sts') by (by apply list_to_map_proper).
  assert (Hf : forall f, forallb f sts = forallb f sts').
  { intros f. apply eq_true_iff_eq. rewrite !forallb_forall. setoid_rewrite <- elem_of_list_In. by setoid_rewrite HP. }
  assert (He : forall f, existsb f sts = existsb f sts').
  { intros f. apply eq_true_iff_eq. rewrite !existsb_exists. setoid_rewrite <- elem_of_list_In. by setoid_rewrite HP. }
  split; [|split; [|split; [|split; [|split]]]].
  - intros g. rewrite (proj2 (C75_same wild sts sols Hok)), (proj2 (C75_same wild sts' sols Hok')). by setoid_rewrite HA.
  - intros a b. rewrite (proj2 (C75_order wild sts sols Hok)), (proj2 (C75_order wild sts' sols Hok')). setoid_rewrite (perm_shows wild sts sts' HP). by rewrite !(perm_points sts sts' HP).
  - unfold missing_subtask_names. by rewrite Hf, Hids, Hmap.
  - unfold invalid_subtask_name, valid_names. rewrite Hids, Hmap.
    apply list_bind_ext; [|done]. intros s. apply list_bind_ext; [|done]. intros c.
    destruct (sn_matching wild sts (sc_pattern c)) as [|x l] eqn:E, (sn_matching wild sts' (sc_pattern c)) as [|x' l'] eqn:E'; try done.
    + exfalso. assert (x' ∈ x' :: l') as Hx by left. rewrite <- E' in Hx. apply about_matching, (perm_about wild sts sts' HP), about_matching in Hx. rewrite E in Hx. by apply elem_of_nil in Hx.
    + exfalso. assert (x ∈ x :: l) as Hx by left. rewrite <- E in Hx. apply about_matching, (perm_about wild sts sts' HP), about_matching in Hx. rewrite E' in Hx. by apply elem_of_nil in Hx.
  - unfold solutions_with_no_checks. by rewrite He.
  - unfold deprecated_description. by rewrite HP.
Qed.
Print Assumptions C75_iteration_order.

(** ** What the warning says and is not so *)
Definition eq_wild (p n : text) : bool := bool_decide (p = n).
Definition pts (name : text) : sn_subtask := SnSubtask (Some name) None f64_one false.
Definition abc : sn_subtasks := [(0, pts [97%N]); (1, pts [98%N]); (2, pts [99%N])].
Definition sol_of (l : list (check_kind * text)) : sn_solution := SnSolution [115%N] false (map (fun x => SolCheck x.1 x.2 0) l).
(** Full statement: two subtasks that no solution tells apart are reported together.  Refuted: 1 and 2 are alike, but 1 is also
    like 0 and 2 is not. *)
Definition shadow : list sn_solution := [sol_of [(KAccepted, [97%N]); (KWrongAnswer, [99%N])]].
Theorem C75_same_complete_refuted : ~ forall wild sts sols a b, sn_ok sts -> some_check sols -> alike wild sts sols a b ->
  exists g, DSameSolutions g ∈ subtask_dependencies wild sts sols /\ a ∈ g /\ b ∈ g.
Proof.
  intros H. destruct (H eq_wild abc shadow 1 2) as (g & Hg & _ & H2).
  - apply (bool_decide_unpack _). vm_compute. exact Logic.I.
  - exists (sol_of [(KAccepted, [97%N]); (KWrongAnswer, [99%N])]). split; [left|done].
  - apply mutual_alike. split; [apply (bool_decide_unpack _); vm_compute; exact Logic.I|vm_compute; reflexivity].
  - assert (subtask_dependencies eq_wild abc shadow = [DSameSolutions [0; 1]]) as E by (vm_compute; reflexivity). rewrite E in Hg.
    apply elem_of_list_singleton in Hg as [= ->]. apply (bool_decide_pack _) in H2. vm_compute in H2. exact H2.
Qed.
Print Assumptions C75_same_complete_refuted.
(** Full statement: no solution tells apart two subtasks of a reported group.  Refuted: 1 and 2 are both like 0, but a solution solves only 1. *)
Definition apart : list sn_solution := [sol_of [(KAccepted, [98%N]); (KWrongAnswer, [99%N])]].
Theorem C75_same_group_refuted : ~ forall wild sts sols g a b s, sn_ok sts -> DSameSolutions g ∈ subtask_dependencies wild sts sols -> a ∈ g -> b ∈ g ->
  s ∈ sols -> ~ shows wild sts s a b.
Proof.
  intros H. apply (H eq_wild abc apart [0; 1; 2] 1 2 (sol_of [(KAccepted, [98%N]); (KWrongAnswer, [99%N])])).
  - apply (bool_decide_unpack _). vm_compute. exact Logic.I.
  - assert (subtask_dependencies eq_wild abc apart = [DSameSolutions [0; 1; 2]]) as -> by (vm_compute; reflexivity). left.
  - apply (bool_decide_unpack _). vm_compute. exact Logic.I.
  - apply (bool_decide_unpack _). vm_compute. exact Logic.I.
  - left.
  - apply separated_spec. vm_compute. reflexivity.
Qed.
Print Assumptions C75_same_group_refuted.
(** Full statement: the subtasks of a reported group are declared solved by the same solutions.  Refuted: a solution declares
    only that it solves 0, another one only that it fails 1. *)
Definition disjoint_checks : list sn_solution := [sol_of [(KAccepted, [97%N])]; sol_of [(KWrongAnswer, [98%N])]].
Theorem C75_same_set_refuted : ~ forall wild sts sols g a b s, sn_ok sts -> DSameSolutions g ∈ subtask_dependencies wild sts sols -> a ∈ g -> b ∈ g ->
  s ∈ sols -> declares wild sts s a KAccepted -> declares wild sts s b KAccepted.
Proof.
  intros H. set (s := sol_of [(KAccepted, [97%N])]).
  assert (Hd : forall st k, declares eq_wild abc s st k -> st = 0).
  { intros st k (bf & c & af & E & (x & n & Hx & En & Hw) & _). destruct bf as [|? [|? ?]]; [|done..]. injection E as <- _. cbn in Hw.
    apply bool_decide_eq_true in Hw. subst n. repeat (apply elem_of_cons in Hx as [[= -> ->]|Hx]; [cbn in En; done|]). by apply elem_of_nil in Hx. }
  assert (1 = 0); [|done]. apply (Hd 1 KAccepted). apply (H eq_wild abc disjoint_checks [0; 1; 2] 0 1 s).
  - apply (bool_decide_unpack _). vm_compute. exact Logic.I.
  - assert (subtask_dependencies eq_wild abc disjoint_checks = [DSameSolutions [0; 1; 2]]) as -> by (vm_compute; reflexivity). left.
  - apply (bool_decide_unpack _). vm_compute. exact Logic.I.
  - apply (bool_decide_unpack _). vm_compute. exact Logic.I.
  - left.
  - exists [], (SolCheck KAccepted [97%N] 0), []. split; [done|]. split; [|split; [done|intros c' Hc; by apply elem_of_nil in Hc]].
    exists (pts [97%N]), [97%N]. split; [left|]. split; [done|]. vm_compute. reflexivity.
Qed.
Print Assumptions C75_same_set_refuted.

(** ** Concrete cases *)
Definition all3 (a b c : check_kind) : sn_solution := sol_of [(a, [97%N]); (b, [98%N]); (c, [99%N])].
(** A thorough task: 0 and 1 are solved by the same solutions, 2 is easier and should come first. *)
Definition full_task : list sn_solution := [all3 KAccepted KAccepted KAccepted; all3 KWrongAnswer KTimeLimit KAccepted].
Example full_task_report : subtask_dependencies eq_wild abc full_task = [DSameSolutions [0; 1]; DNotInOrder [(0, 2); (1, 2)]].
Proof. vm_compute. reflexivity. Qed.
Lemma declares_last wild sts s before c after st : so_checks s = before ++ c :: after -> about wild sts c st -> (forall c', c' ∈ after -> ~ about wild sts c' st) -> declares wild sts s st (sc_kind c).
Proof. intros E Ha Hn. by exists before, c, after. Qed.
Example full_task_thorough : sn_ok abc /\ some_check full_task /\ thorough eq_wild abc full_task.
Proof.
  split; [apply (bool_decide_unpack _); vm_compute; exact Logic.I|]. split; [exists (all3 KAccepted KAccepted KAccepted); split; [left|done]|].
  intros s a b Hs _ (x & Hx & _) _.
  assert (is_Some (score_range eq_wild abc s !! b)) as [v Hv].
  { repeat (apply elem_of_cons in Hs as [->|Hs]; [repeat (apply elem_of_cons in Hx as [[= -> _]|Hx]; [vm_compute; by eexists|]); by apply elem_of_nil in Hx|]). by apply elem_of_nil in Hs. }
  apply score_range_spec in Hv as (k & Hk & _). by exists k.
Qed.
(** 20 + 30 + 50 points, no name for the second one, a check on a subtask that does not exist, a solution without checks *)
Definition mixed : sn_subtasks :=
  [(2, SnSubtask (Some [99%N]) (Some [98%N; 32%N]) (f64_of_Z 50) false); (0, SnSubtask (Some [97%N]) None (f64_of_Z 20) false); (1, SnSubtask None None (f64_of_Z 30) false)].
Example mixed_report : sn_ok mixed /\ integer_scores mixed [50; 20; 30]%Z /\ task_max_score mixed = [] /\
  missing_subtask_names mixed = [DMissingNames [(1, f64_of_Z 30)]] /\
  invalid_subtask_name eq_wild mixed [sol_of [(KAccepted, [97%N]); (KAccepted, [98%N])]] = [DInvalidName [98%N] [115%N] [[97%N]; [99%N]]] /\
  deprecated_description mixed = [DDeprecated 2] /\
  solutions_with_no_checks mixed [sol_of []] = [] /\ solutions_with_no_checks abc [sol_of []; all3 KAccepted KAccepted KAccepted] = [DNoChecks [[115%N]]].
Proof.
  split; [apply (bool_decide_unpack _); vm_compute; exact Logic.I|]. split; [split; [reflexivity|]; split; [repeat constructor; done|by vm_compute]|].
  repeat (split; [vm_compute; reflexivity|]). vm_compute. reflexivity.
Qed.
