(** * CacheProps: properties C16-C21 of the cache *)
From Verif Require Import CacheSpec CacheProofs CacheProofs2 SchedSpec CheckDagProps.

(** C21. The status of an execution is the first exceeded limit, then the signal, then the exit code. *)
Theorem C21_status_classification : forall e code sig r s,
  exec_status e code sig r = s <-> verdict (e_limits e) code sig r s.
Proof. exact exec_status_verdict. Qed.
Print Assumptions C21_status_classification.

(** Usage equal to the limit is allowed, one more is not; cpu time is reported before the rest. *)
Example C21_boundary : let lim := Limits (Some 10%Z) None (Some 20%Z) (Some 5%Z) false None None None None true false false [] in
  let e := Execution 1 (System "x") [] None None None None None [] [] None None None [] [] lim ex_config None 0 in
  exec_status e 0 None (Resources 10 3 20 5) = Success /\ exec_status e 0 None (Resources 11 3 21 6) = TimeLimitExceeded /\
  exec_status e 1 (Some (9%Z, "KILL")) (Resources 10 3 20 6) = MemoryLimitExceeded /\
  exec_status e 1 (Some (9%Z, "KILL")) (Resources 10 3 20 5) = Signal 9 "KILL".
Proof. by vm_compute. Qed.

(** ** C16 *)
Definition u64_memory (l : limits) : Prop := match l_memory l with Some x => (0 <= x < U64)%Z | None => True end.
Definition u64_group (g : group) : Prop := forall e, e ∈ g_execs g -> u64_memory (e_limits e).

Lemma check_memory_eq checked l r a : (match l with Some x => (0 <= x < U64)%Z | None => True end) ->
  check_memory checked l r a a = Some true -> lim_le l r.
Proof.
  unfold check_memory, lim_le. destruct l as [x|], r as [y|]; simpl; try done. intros Hx H. exists x. split; [done|]. destruct checked.
  - repeat case_bool_decide; try done. lia.
  - rewrite Z.sub_diag, Z.mod_0_l, Z.add_0_r, Z.mod_small in H by (unfold U64 in *; lia). case_bool_decide; [done|lia].
Qed.
Lemma check_limits_eq checked l r dt a : u64_memory l -> dt = 0%Z -> check_limits checked l r dt a a = Some true ->
  lim_le (l_cpu_time l) (l_cpu_time r) /\ lim_le (l_sys_time l) (l_sys_time r) /\ lim_le (l_wall_time l) (l_wall_time r) /\ lim_le (l_memory l) (l_memory r).
Proof.
  intros Hm -> H. unfold check_limits in H.
  destruct (check_limit (l_cpu_time l) (l_cpu_time r) 0) eqn:E1; [|done].
  destruct (check_limit (l_sys_time l) (l_sys_time r) 0) eqn:E2; [|done].
  destruct (check_limit (l_wall_time l) (l_wall_time r) 0) eqn:E3; [|done]. simpl in H.
  destruct (check_memory checked (l_memory l) (l_memory r) a a) as [[]|] eqn:E4; try done.
  apply check_memory_eq in E4; [|done]. apply check_limit_le in E1, E2, E3. rewrite shift_0 in *. done.
Qed.
Lemma over_le l r u : lim_le l r -> over r u -> over l u.
Proof. unfold lim_le, over. intros H (y&->&Hy). destruct H as (x&->&Hx). exists x. split; [done|lia]. Qed.
Lemma replay_class checked e e0 i et em : worker_made e0 (ei_result i) -> ei_limits i = e_limits e0 ->
  ei_extra_time i = et -> ei_extra_memory i = em -> u64_memory (e_limits e) -> u64_memory (ei_limits i) ->
  match res_status (ei_result i) with
  | Success => check_limits checked (ei_limits i) (e_limits e) (ei_extra_time i - et) (ei_extra_memory i) em
  | _ => check_limits checked (e_limits e) (ei_limits i) (et - ei_extra_time i) em (ei_extra_memory i)
  end = Some true ->
  res_status (ei_result i) = Success <-> res_status (replay e (ei_result i)) = Success.
Proof.
  intros (code&sig&Hv) Hl -> -> Hu Hu0 Hc. rewrite <- Hl in Hv. rewrite Z.sub_diag in Hc. unfold replay.
  destruct (res_status (ei_result i)) eqn:Es; simpl in Hc; simpl;
    (eapply check_limits_eq in Hc; [|assumption|reflexivity]); destruct Hc as (L1&L2&L3&L4); rewrite exec_status_verdict; unfold verdict in *;
    try (pose proof (over_le _ _ (r_cpu_time (res_resources (ei_result i))) L1)); try (pose proof (over_le _ _ (r_sys_time (res_resources (ei_result i))) L2));
    try (pose proof (over_le _ _ (r_wall_time (res_resources (ei_result i))) L3)); try (pose proof (over_le _ _ (r_memory (res_resources (ei_result i))) L4)).
  - split; [|done]. intros _. tauto.
  - split; [done|]. intros (_&_&_&_&_&?). tauto.
  - split; [done|]. intros (_&_&_&_&?&_). done.
  - split; [done|]. tauto.
  - split; [done|]. tauto.
  - split; [done|]. tauto.
  - split; [done|]. tauto.
  - done.
Qed.
Lemma compatible_loop_all checked et em l e i : compatible_loop checked et em l = Some true -> (e, i) ∈ l ->
  match res_status (ei_result i) with
  | Success => check_limits checked (ei_limits i) (e_limits e) (ei_extra_time i - et) (ei_extra_memory i) em
  | _ => check_limits checked (e_limits e) (ei_limits i) (et - ei_extra_time i) em (ei_extra_memory i)
  end = Some true.
Proof.
  induction l as [|[e' i'] l IH]; intros H Hin; [by apply not_elem_of_nil in Hin|]. cbn [compatible_loop] in H.
  match type of H with match ?x with _ => _ end = _ => destruct x as [[]|] eqn:E; try done end.
  apply elem_of_cons in Hin as [[= -> ->]|Hin]; [exact E|by apply IH].
Qed.

(** What a hit is made of: an earlier insertion of a group with the same key. *)
Lemma hit_from_insertion ok checked st h c g keys rs outs : built ok h c -> (forall x, ok x -> all_results x) ->
  cache_get checked st g keys c = ROk (Some (rs, outs)) ->
  exists g0 keys0 results0 en k, (g0, keys0, results0) ∈ h /\ ok (g0, keys0, results0) /\
    key_of_group keys0 g0 = ROk k /\ key_of_group keys g = ROk k /\ entry_of_group keys0 g0 results0 = ROk en /\
    length (g_execs g0) = length (g_execs g) /\ length en = length (g_execs g) /\ length results0 = length (g_execs g) /\
    entry_outputs st g en = Some outs /\ is_compatible checked g en = Some true /\ rs = replays g en.
Proof.
  intros Hb Hok Hg. unfold cache_get in Hg. destruct (key_of_group keys g) as [k| | |] eqn:Ek; try done. simpl in Hg.
  apply search_hit in Hg as (en&Hin&Ho&Hc&->). destruct (built_entries _ _ _ Hb _ _ Hin) as (g0&keys0&results0&Hh&Hx&Hk0&Hen).
  exists g0, keys0, results0, en, k. pose proof (key_length _ _ _ Ek) as L1. pose proof (key_length _ _ _ Hk0) as L2.
  pose proof (Hok _ Hx) as L3. unfold all_results in L3. simpl in L3. pose proof (entry_length _ _ _ _ Hen L3) as L4.
  split_and!; try done; congruence.
Qed.

Lemma entry_item_at keys g results en j i : entry_of_group keys g results = ROk en -> en !! j = Some i ->
  exists e r, g_execs g !! j = Some e /\ results !! j = Some r /\ item_of_exec keys e r = ROk i.
Proof.
  intros H Hi. apply entry_of_group_spec in H. destruct (Forall2_lookup_r _ _ _ _ _ H Hi) as ([e r]&Hz&Hx).
  apply lookup_zip_with_Some in Hz as (e'&r'&[= -> ->]&He&Hr). eauto.
Qed.
Lemma replays_at g en j r : replays g en !! j = Some r -> exists e i, g_execs g !! j = Some e /\ en !! j = Some i /\ r = replay e (ei_result i).
Proof.
  unfold replays. change (map ?f ?l) with (f <$> l). rewrite list_lookup_fmap.
  destruct (zip (g_execs g) en !! j) as [[e i]|] eqn:Ez; [|done]. simpl. intros [= <-].
  apply lookup_zip_with_Some in Ez as (e'&i'&[= -> ->]&He&Hi). eauto.
Qed.
Lemma zip_at {A B} (l : list A) (k : list B) j x y : l !! j = Some x -> k !! j = Some y -> (x, y) ∈ zip l k.
Proof. intros H1 H2. apply elem_of_list_lookup. exists j. apply lookup_zip_with_Some. eauto. Qed.
Lemma replays_length g en : length en = length (g_execs g) -> length (replays g en) = length (g_execs g).
Proof. intros H. unfold replays. rewrite map_length, zip_with_length. lia. Qed.

(** C16. With the same extra time and memory a hit is successful iff the inserted result was. *)
Theorem C16_verdict_class : forall checked st h c t m g keys rs outs,
  built (fun x => made_by_worker x.1.1 x.2 /\ extras t m x.1.1 /\ u64_group x.1.1) h c -> extras t m g -> u64_group g ->
  cache_get checked st g keys c = ROk (Some (rs, outs)) ->
  exists g0 keys0 results0, (g0, keys0, results0) ∈ h /\ key_of_group keys0 g0 = key_of_group keys g /\
    Forall2 (fun r0 r => res_status r0 = Success <-> res_status r = Success) results0 rs.
Proof.
  intros checked st h c t m g keys rs outs Hb Hx Hu Hg.
  destruct (hit_from_insertion _ _ _ _ _ _ _ _ _ Hb ltac:(intros x (Hm&_); unfold all_results; symmetry; by eapply Forall2_length) Hg)
    as (g0&keys0&results0&en&k&Hh&(Hm&Hx0&Hu0)&Hk0&Hk&Hen&L0&L1&L2&Ho&Hc&->). simpl in *.
  exists g0, keys0, results0. split; [done|]. split; [congruence|].
  apply Forall2_same_length_lookup_2; [by rewrite replays_length|].
  intros j r0 r Hr0 Hr. apply replays_at in Hr as (e&i&He&Hi&->).
  destruct (entry_item_at _ _ _ _ _ _ Hen Hi) as (e0&r0'&He0&Hr0'&Hit). rewrite Hr0 in Hr0'. injection Hr0' as <-.
  apply item_of_exec_spec in Hit as (os&_&Ei).
  pose proof (elem_of_list_lookup_2 _ _ _ He) as Ein. pose proof (elem_of_list_lookup_2 _ _ _ He0) as Ein0.
  unfold is_compatible in Hc. destruct (g_execs g) as [|e1 es] eqn:Eg; [done|].
  destruct (Hx e1) as [Ht1 Hm1]; [rewrite Eg; left|]. rewrite Ht1, Hm1 in Hc.
  assert (Hz : (e, i) ∈ zip (e1 :: es) en) by (by eapply zip_at).
  pose proof (compatible_loop_all _ _ _ _ _ _ Hc Hz) as Hcl. replace r0 with (ei_result i) by (by rewrite Ei).
  destruct (Hx0 e0 Ein0) as [Ht0 Hm0].
  eapply (replay_class checked e e0 i t m); try done.
  - rewrite Ei. simpl. by eapply (Forall2_lookup_lr _ _ _ j).
  - by rewrite Ei.
  - by rewrite Ei.
  - by rewrite Ei.
  - apply Hu. by rewrite Eg.
  - rewrite Ei. simpl. by apply Hu0.
Qed.
Print Assumptions C16_verdict_class.

(** Finding: with different extra times a program killed for exceeding its time limit is reported successful, and a
    successful one is reported as failed. *)
Definition tl_exec (tl extra : Z) : execution :=
  Execution 1 (System "sol") [] None None None None None [] [] None None None [] []
    (Limits (Some tl) None None None false None None None None true false false []) (DagConfig false CacheEverything extra 0 0) None 0.
Definition tl_group (tl extra : Z) : group := Group 1 [tl_exec tl extra] [].
Definition used (t : Z) (s : status) : exec_result := ExecResult s true false (Resources t 0 t 0) None None.
Definition get_after_insert (g0 : group) (r0 : exec_result) (g : group) : option status :=
  match cache_insert g0 ∅ [r0] [] with
  | ROk c => match cache_get true (fun _ => true) g ∅ c with ROk (Some ([r], _)) => Some (res_status r) | _ => None end
  | _ => None
  end.
Theorem C16_extra_time_refuted :
  exists tl extra tl' extra' t,
    made_by_worker (tl_group tl extra) [used t TimeLimitExceeded] /\
    get_after_insert (tl_group tl extra) (used t TimeLimitExceeded) (tl_group tl' extra') = Some Success.
Proof.
  exists 5%Z, 10%Z, 10%Z, 5%Z, 6%Z. split; [|by vm_compute]. repeat constructor. exists 0%Z, None. simpl. eexists. split; [done|]. simpl. lia.
Qed.
Print Assumptions C16_extra_time_refuted.
Theorem C16_extra_time_success_refuted :
  exists tl extra tl' extra' t,
    made_by_worker (tl_group tl extra) [used t Success] /\
    get_after_insert (tl_group tl extra) (used t Success) (tl_group tl' extra') = Some TimeLimitExceeded.
Proof.
  exists 10%Z, 0%Z, 3%Z, 7%Z, 5%Z. split; [|by vm_compute]. repeat constructor. exists 0%Z, None. unfold verdict, over. simpl.
  split_and!; try done; intros (?&?&?); simplify_eq; lia.
Qed.
Print Assumptions C16_extra_time_success_refuted.
(** A case where the hypotheses of C16 hold and the lookup is a hit with different limits. *)
Example C16_example : get_after_insert (tl_group 5 2) (used 6 TimeLimitExceeded) (tl_group 4 2) = Some TimeLimitExceeded /\
  get_after_insert (tl_group 5 2) (used 4 Success) (tl_group 9 2) = Some Success /\
  get_after_insert (tl_group 5 2) (used 4 Success) (tl_group 4 2) = None.
Proof. by vm_compute. Qed.

(** ** C17 *)
(** [e] is run with the extras of the configuration of its group, [i] is what was cached. *)
Theorem C17_compatibility_partial : forall checked g en e i,
  is_compatible checked g en = Some true -> (e, i) ∈ zip (g_execs g) en ->
  forall t m, extras t m g -> memory_fits (e_limits e) m -> memory_fits (ei_limits i) (ei_extra_memory i) ->
  if is_success (res_status (ei_result i)) then
    numbers_le (ei_limits i) (e_limits e) (ei_extra_time i - t) (ei_extra_memory i - m) /\ flags_le (ei_limits i) (e_limits e) /\
    (chain (ei_limits i) (e_limits e) -> dirs_le (ei_limits i) (e_limits e))
  else
    numbers_le (e_limits e) (ei_limits i) (t - ei_extra_time i) (m - ei_extra_memory i) /\ flags_le (e_limits e) (ei_limits i) /\
    (chain (e_limits e) (ei_limits i) -> dirs_le (e_limits e) (ei_limits i)).
Proof.
  intros checked g en e i Hc Hz t m Hx Hf1 Hf2. unfold is_compatible in Hc. destruct (g_execs g) as [|e1 es] eqn:Eg; [done|].
  destruct (Hx e1) as [Ht1 Hm1]; [rewrite Eg; left|]. rewrite Ht1, Hm1 in Hc.
  pose proof (compatible_loop_all _ _ _ _ _ _ Hc Hz) as Hcl.
  destruct (res_status (ei_result i)); simpl in *; by eapply check_limits_sound.
Qed.
Print Assumptions C17_compatibility_partial.

(** Identical limits are always compatible. *)
Theorem C17_identical_limits : forall checked g en t m, g_execs g <> [] -> extras t m g ->
  (forall e i, (e, i) ∈ zip (g_execs g) en -> ei_limits i = e_limits e /\ ei_extra_time i = t /\ ei_extra_memory i = m /\ memory_fits (e_limits e) m) ->
  is_compatible checked g en = Some true.
Proof.
  intros checked g en t m Hne Hx H. unfold is_compatible. destruct (g_execs g) as [|e1 es] eqn:Eg; [done|].
  destruct (Hx e1) as [-> ->]; [rewrite Eg; left|]. revert H. generalize (e1 :: es). clear. intros l H.
  induction (zip l en) as [|[e i] z IH]; [done|]. cbn [compatible_loop].
  destruct (H e i) as (E1&E2&E3&E4); [left|]. rewrite E1, E2, E3, Z.sub_diag.
  rewrite check_limits_same by done. assert (IH' : compatible_loop checked t m z = Some true) by (apply IH; intros; apply H; by right).
  by destruct (res_status (ei_result i)).
Qed.
Print Assumptions C17_identical_limits.

(** Finding: the restriction on /proc is ignored, and readable directories are only compared when the sets are nested. *)
Definition proc_group (proc : bool) (dirs : list path) : group := Group 1 [Execution 1 (System "sol") [] None None None None None [] [] None None None [] []
    (Limits None None None None false None None None None true false proc dirs) ex_config None 0] [].
Theorem C17_mount_proc_refuted : get_after_insert (proc_group true []) (used 1 Success) (proc_group false []) = Some Success.
Proof. by vm_compute. Qed.
Print Assumptions C17_mount_proc_refuted.
Theorem C17_readable_dirs_refuted : get_after_insert (proc_group false ["/opt"]) (used 1 Success) (proc_group false ["/srv"]) = Some Success.
Proof. by vm_compute. Qed.
Print Assumptions C17_readable_dirs_refuted.
(** Finding: with overflow checks (debug builds) a difference of the extra memory in the wrong direction panics. *)
Theorem C17_extra_memory_panic_refuted : exists g0 g r0 c,
  cache_insert g0 ∅ [r0] [] = ROk c /\ cache_get true (fun _ => true) g ∅ c = RPanic.
Proof.
  exists (Group 1 [Execution 1 (System "sol") [] None None None None None [] [] None None None [] []
    (Limits None None None (Some 100%Z) false None None None None true false false []) (DagConfig false CacheEverything 0 1 0) None 0] []).
  exists (Group 1 [Execution 1 (System "sol") [] None None None None None [] [] None None None [] []
    (Limits None None None (Some 100%Z) false None None None None true false false []) (DagConfig false CacheEverything 0 2 0) None 0] []).
  exists (used 1 Success). eexists. split; [vm_compute; reflexivity|]. by vm_compute.
Qed.
Print Assumptions C17_extra_memory_panic_refuted.

(** ** C18 *)
(** The full statement has no hypothesis [no_fifo_names] and is false, see [C18_fifo_name_refuted]. *)
Theorem C18_key_identifies_partial : forall g1 keys1 k1 g2 keys2 k2,
  group_maps_ok g1 -> group_maps_ok g2 -> no_fifo_names g1 -> no_fifo_names g2 ->
  key_of_group keys1 g1 = ROk k1 -> key_of_group keys2 g2 = ROk k2 ->
  k1 = k2 <-> Forall2 (same_exec g1 keys1 g2 keys2) (g_execs g1) (g_execs g2).
Proof.
  intros g1 keys1 k1 g2 keys2 k2 [Hf1 Hm1] [Hf2 Hm2] Hn1 Hn2 H1 H2. apply key_of_group_spec in H1, H2.
  unfold no_fifo_names in *.
  revert k1 k2 H1 H2 Hm2 Hn2. generalize (g_execs g2). revert Hm1 Hn1. generalize (g_execs g1).
  induction l as [|e1 l1 IH]; intros Hm1 Hn1 l2 k1 k2 H1 H2 Hm2 Hn2.
  - inversion H1; subst. destruct l2 as [|e2 l2]; inversion H2; subst; split; try done. intros H; inversion H.
  - inversion H1 as [|? i1 ? k1' Hi1 Hk1]; subst. destruct l2 as [|e2 l2]; inversion H2 as [|? i2 ? k2' Hi2 Hk2]; subst; [split; [done|intros H; inversion H]|].
    destruct (Hm1 e1) as [A1 B1]; [left|]. destruct (Hm2 e2) as [A2 B2]; [left|].
    assert (Hhead : i1 = i2 <-> same_exec g1 keys1 g2 keys2 e1 e2).
    { eapply key_items_eq; try done; intros a i Ha; [eapply (Hn1 e1)|eapply (Hn2 e2)]; try done; left. }
    assert (Htail : k1' = k2' <-> Forall2 (same_exec g1 keys1 g2 keys2) l1 l2).
    { apply (IH ltac:(intros e He; apply Hm1; by right) ltac:(intros e a i He; apply (Hn1 e); by right) l2 k1' k2' Hk1 Hk2);
        [intros e He; apply Hm2; by right|intros e a i He; apply (Hn2 e); by right]. }
    split.
    + intros [= E1 E2]. constructor; [by apply Hhead|by apply Htail].
    + intros H. inversion H; subst. f_equal; [by apply Hhead|by apply Htail].
Qed.
Print Assumptions C18_key_identifies_partial.

(** The key does not depend on the iteration order of the maps. *)
Lemma Forall2_perm {A B} (R : A -> B -> Prop) l l' k : l ≡ₚ l' -> Forall2 R l k -> exists k', k ≡ₚ k' /\ Forall2 R l' k'.
Proof.
  intros Hp. revert k. induction Hp as [|x l l' Hp IH|x y l|l1 l2 l3 H1 IH1 H2 IH2]; intros k Hk.
  - inversion Hk; subst. by exists [].
  - inversion Hk as [|? z ? k0 ? Hk0]; subst. destruct (IH _ Hk0) as (k'&?&?). exists (z :: k'). split; [by constructor|by constructor].
  - inversion Hk as [|? z ? k0 ? Hk0]; subst. inversion Hk0 as [|? z' ? k1 ? Hk1]; subst. exists (z' :: z :: k1). split; [constructor|by repeat constructor].
  - destruct (IH1 _ Hk) as (k'&?&Hk'). destruct (IH2 _ Hk') as (k''&?&?). exists k''. split; [by etrans|done].
Qed.
Theorem C18_order_irrelevant : forall keys g e e' k,
  e_inputs e ≡ₚ e_inputs e' -> e_env e ≡ₚ e_env e' -> e_command e = e_command e' -> e_args e = e_args e' -> e_stdin e = e_stdin e' ->
  key_of_exec keys g e = ROk k -> key_of_exec keys g e' = ROk k.
Proof.
  intros keys g e e' k Hi He Hc Ha Hs H. apply key_of_exec_spec in H as (xs&Hx&Hst&->). apply key_of_exec_spec.
  destruct (Forall2_perm _ _ _ _ Hi Hx) as (xs'&Hp&Hx'). exists xs'. split; [done|]. split; [by rewrite <- Hs|].
  rewrite Hc, Ha. f_equal.
  - unfold stdin_key. by rewrite Hs.
  - by apply (sort_eq input_le).
  - by apply (sort_eq env_le).
Qed.
Print Assumptions C18_order_irrelevant.

(** Finding: a literal argument equal to the name given to a fifo makes two different groups collide. *)
Definition arg_exec (a : string) : execution := Execution 1 (System "sol") [a] None None None None None [] [] None None None [] []
  (Limits None None None None false None None None None true false false []) ex_config None 0.
Theorem C18_fifo_name_refuted : exists g1 g2 k,
  group_maps_ok g1 /\ group_maps_ok g2 /\ key_of_group ∅ g1 = ROk k /\ key_of_group ∅ g2 = ROk k /\
  ~ Forall2 (same_exec g1 ∅ g2 ∅) (g_execs g1) (g_execs g2).
Proof.
  exists (Group 1 [arg_exec "tm_fifo_0"] [7%positive]), (Group 1 [arg_exec "tm_pipes/7"] [7%positive]). eexists.
  assert (Hok : forall a, group_maps_ok (Group 1 [arg_exec a] [7%positive])).
  { intros a. split; [apply NoDup_singleton|]. simpl. intros e He. apply elem_of_list_singleton in He as ->. simpl. split; apply NoDup_nil_2. }
  split; [done|]. split; [done|]. split; [vm_compute; reflexivity|]. split; [by vm_compute|].
  simpl. intros H. inversion H as [|? ? ? ? H1 _]; subst. destruct H1 as (_&Ha&_). simpl in Ha. inversion Ha as [|? ? ? ? H2 _]; subst.
  destruct H2 as [(i&u&v&Hu&_&E&_)|(E&_)]; [|done].
  destruct i as [|i]; simpl in Hu; [|done]. injection Hu as <-. by vm_compute in E.
Qed.
Print Assumptions C18_fifo_name_refuted.

(** Finding: the path standard input, output and error are redirected to, and the variables copied from the
    environment of the worker, change what the program does and are not part of the key. *)
Definition redirect_exec (out : option path) (copy : list string) : execution :=
  Execution 1 (System "sol") [] None None None None None [] [("out", 5%positive)] None out None [] copy
  (Limits None None None None false None None None None true false false []) ex_config None 0.
Theorem C18_ignored_fields_refuted : exists g1 g2 keys,
  (exists e1 e2, g_execs g1 = [e1] /\ g_execs g2 = [e2] /\ e_stdout_redirect e1 <> e_stdout_redirect e2 /\ e_copy_env e1 <> e_copy_env e2) /\
  key_of_group keys g1 = key_of_group keys g2 /\
  exists c r, cache_insert g1 keys [r] [] = ROk c /\ exists rs, cache_get true (fun _ => true) g2 keys c = ROk (Some (rs, keys)).
Proof.
  exists (Group 1 [redirect_exec (Some "out") []] []), (Group 1 [redirect_exec None ["PATH"]] []), {[5%positive := 9%positive]}.
  split; [eexists _, _; done|]. split; [done|]. eexists _, (used 1 Success). split; [vm_compute; reflexivity|]. eexists. vm_compute. reflexivity.
Qed.
Print Assumptions C18_ignored_fields_refuted.

(** ** C20 *)
(** On a hit there is a result per execution, all flagged as cached, and every output file of the group has a handle
    of a file of the store, whose content is the one of the corresponding file of an earlier insertion with the same key. *)
Lemma plookup_in {A} p (l : list (path * A)) v : plookup p l = Some v -> (p, v) ∈ l.
Proof. induction l as [|[q w] l IH]; simpl; [done|]. case_decide; [intros [= ->]; subst; left|intros; right; auto]. Qed.
Lemma group_output_in f g : f ∈ group_outputs g -> exists e, e ∈ g_execs g /\ f ∈ outputs e.
Proof. unfold group_outputs. intros H. apply elem_of_list_In, in_flat_map in H as (e&He&Hf). exists e. by rewrite !elem_of_list_In. Qed.
Theorem C20_hit_provides_outputs : forall checked st h c g keys rs outs,
  built all_results h c -> cache_get checked st g keys c = ROk (Some (rs, outs)) ->
  length rs = length (g_execs g) /\ (forall r, r ∈ rs -> res_was_cached r = true) /\
  exists g0 keys0 results0, (g0, keys0, results0) ∈ h /\ key_of_group keys0 g0 = key_of_group keys g /\
    (forall f, f ∈ group_outputs g -> exists k, outs !! f = Some k) /\
    (forall f k, outs !! f = Some k -> st k = true /\
      exists j e e0 f0, g_execs g !! j = Some e /\ g_execs g0 !! j = Some e0 /\ same_role e f e0 f0 /\ keys0 !! f0 = Some k).
Proof.
  intros checked st h c g keys rs outs Hb Hg.
  destruct (hit_from_insertion _ _ _ _ _ _ _ _ _ Hb ltac:(done) Hg) as (g0&keys0&results0&en&k0&Hh&_&Hk0&Hk&Hen&L0&L1&L2&Ho&_&->).
  split; [by apply replays_length|]. split.
  { intros r Hr. apply elem_of_list_lookup in Hr as (j&Hj). apply replays_at in Hj as (e&i&_&_&->). unfold replay.
    by destruct (match res_status (ei_result i) with ReturnCode c0 => (c0, None) | Signal s name => (0%Z, Some (s, name)) | _ => (0%Z, None) end). }
  exists g0, keys0, results0. split; [done|]. split; [congruence|].
  destruct (entry_outputs_fold _ _ _ _ Ho) as (O1&O2&_). split.
  - intros f Hf. apply group_output_in in Hf as (e&He&Hf). apply elem_of_list_lookup in He as (j&Hj).
    destruct (lookup_lt_is_Some_2 en j) as (i&Hi); [rewrite L1; by eapply lookup_lt_Some|].
    apply (O1 e i f); [by eapply zip_at|done].
  - intros f k Hf. destruct (O2 f k Hf) as [Hf'|(e&i&Hin&Hrec&Hst)]; [by rewrite lookup_empty in Hf'|]. split; [done|].
    apply elem_of_list_lookup in Hin as (j&Hj). apply lookup_zip_with_Some in Hj as (e'&i'&[= -> ->]&Hej&Hij).
    destruct (entry_item_at _ _ _ _ _ _ Hen Hij) as (e0&r0&He0&Hr0&Hit). apply item_of_exec_spec in Hit as (os&Hos&->).
    exists j, e'. exists e0. destruct Hrec as [[H1 H2]|[[H1 H2]|(p&H1&H2)]]; simpl in H2.
    + destruct (e_stdout e0) as [f0|] eqn:E0; [|done]. exists f0. split_and!; try done. left. done.
    + destruct (e_stderr e0) as [f0|] eqn:E0; [|done]. exists f0. split_and!; try done. right. left. done.
    + apply plookup_in in H2. apply elem_of_list_lookup in H2 as (n&Hn).
      destruct (Forall2_lookup_r _ _ _ _ _ Hos Hn) as ([p0 f0]&Hp&Hr). destruct Hr as [Hr1 Hr2]. simpl in *. subst p0.
      exists f0. split_and!; try done. right. right. exists p. split; [done|]. by eapply elem_of_list_lookup_2.
Qed.
Print Assumptions C20_hit_provides_outputs.

(** The scheduler of SchedModel.v may therefore be run with any such cache: the assumption of its properties holds. *)
Theorem C20_scheduler_assumption : forall (env : env),
  (forall n A (l : list A), e_ord env n A l ≡ₚ l) ->
  (forall n gr handles x, e_cache env n gr handles = Some x ->
     exists checked st h c, built all_results h c /\ cache_get checked st gr handles c = ROk (Some x)) ->
  env_ok env.
Proof.
  intros env Ho Hc. split; [done|]. intros n gr handles results outs H. destruct (Hc _ _ _ _ H) as (ck&st&h&c&Hb&Hg).
  destruct (C20_hit_provides_outputs _ _ _ _ _ _ _ _ Hb Hg) as (H1&H2&g0&keys0&r0&_&_&H3&_). done.
Qed.
Print Assumptions C20_scheduler_assumption.

(** ** C19 *)
Lemma worker_replay e r : worker_made e r -> replay e r = as_cached r.
Proof.
  intros (code&sig&Hv). unfold replay, as_cached.
  assert (Hs : forall c s, verdict (e_limits e) c s (res_resources r) (res_status r) -> exec_status e c s (res_resources r) = res_status r)
    by (intros; by apply exec_status_verdict).
  destruct (res_status r) eqn:Es; try done; f_equal; apply Hs; simpl in *; tauto.
Qed.
Definition no_match (checked : bool) (st : store_key -> bool) (g : group) (en : cache_entry) : Prop :=
  entry_outputs st g en = None \/ is_compatible checked g en = Some false.
Lemma search_miss checked st g es : search checked st g es = ROk None <-> forall en, en ∈ es -> no_match checked st g en.
Proof.
  unfold no_match. induction es as [|en es IH]; simpl; [split; [intros _ en H; by apply not_elem_of_nil in H|done]|]. split.
  - destruct (entry_outputs st g en) as [o|] eqn:Eo.
    + destruct (is_compatible checked g en) as [[]|] eqn:Ec; try done. rewrite IH. intros H x Hx. apply elem_of_cons in Hx as [->|Hx]; auto.
    + rewrite IH. intros H x Hx. apply elem_of_cons in Hx as [->|Hx]; auto.
  - intros H. assert (IH' : search checked st g es = ROk None) by (apply IH; intros x Hx; apply H; by right).
    destruct (H en) as [-> | ->]; [left|done|]. destruct (entry_outputs st g en); [done|done].
Qed.
Lemma search_put checked st g en es outs : (forall x, x ∈ es -> same_limits x en = false -> no_match checked st g x) ->
  entry_outputs st g en = Some outs -> is_compatible checked g en = Some true ->
  search checked st g (put_entry en es) = ROk (Some (replays g en, outs)).
Proof.
  intros Hes Ho Hc. induction es as [|x es IH]; cbn [put_entry search]; [by rewrite Ho, Hc|].
  destruct (same_limits x en) eqn:E; cbn [search]; [by rewrite Ho, Hc|].
  assert (IH' : search checked st g (put_entry en es) = ROk (Some (replays g en, outs))) by (apply IH; intros y Hy; apply Hes; by right).
  destruct (Hes x) as [-> | H]; [left|done|done|]. rewrite H. destruct (entry_outputs st g x); done.
Qed.
Lemma plookup_rel keys l os p f : NoDup l.*1 -> Forall2 (out_rel keys) l os -> (p, f) ∈ l -> plookup p os = keys !! f.
Proof.
  intros Hnd H Hin. induction H as [|[p0 f0] [q k] l os Hr H IH]; [by apply not_elem_of_nil in Hin|]. simpl.
  destruct Hr as [H1 H2]. simpl in *. subst q. apply NoDup_cons in Hnd as [Hn Hnd]. apply elem_of_cons in Hin as [[= -> ->]|Hin].
  - by rewrite decide_True.
  - rewrite decide_False; [by apply IH|]. intros ->. apply Hn. by apply (elem_of_list_fmap_1 fst _ (p0, f)) in Hin.
Qed.
Lemma ofoldl_total {A B} (f : B -> A -> option B) (P : B -> Prop) (l : list A) (b : B) :
  P b -> (forall x b, x ∈ l -> P b -> exists b', f b x = Some b' /\ P b') -> exists b', ofoldl f l b = Some b' /\ P b'.
Proof.
  revert b. induction l as [|x l IH]; intros b Hb H; simpl; [eauto|].
  destruct (H x b) as (b1&E&Hb1); [left|done|]. rewrite E. apply IH; [done|]. intros y b2 Hy. apply H. by right.
Qed.
Lemma own_outputs st g keys results en : entry_of_group keys g results = ROk en ->
  (forall e, e ∈ g_execs g -> NoDup (e_outputs e).*1) ->
  (forall f, f ∈ group_outputs g -> exists k, keys !! f = Some k /\ st k = true) ->
  exists outs, entry_outputs st g en = Some outs /\ forall f k, outs !! f = Some k -> keys !! f = Some k.
Proof.
  intros Hen Hnd Hst. unfold entry_outputs.
  apply (ofoldl_total (item_outputs st) (fun m : gmap file_uuid store_key => forall f k, m !! f = Some k -> keys !! f = Some k)); [intros f k; by rewrite lookup_empty|].
  intros [e i] m Hin Hm. apply elem_of_list_lookup in Hin as (j&Hj). apply lookup_zip_with_Some in Hj as (e'&i'&[= -> ->]&Hej&Hij).
  destruct (entry_item_at _ _ _ _ _ _ Hen Hij) as (e0&r0&He0&Hr0&Hit). rewrite Hej in He0. injection He0 as <-.
  apply item_of_exec_spec in Hit as (os&Hos&->). pose proof (elem_of_list_lookup_2 _ _ _ Hej) as He.
  assert (Hst' : forall f, f ∈ outputs e' -> exists k, keys !! f = Some k /\ st k = true).
  { intros f Hf. apply Hst. unfold group_outputs. apply elem_of_list_In, in_flat_map. exists e'. by rewrite <- !elem_of_list_In. }
  assert (Hadd : forall f m, f ∈ outputs e' -> (forall f k, m !! f = Some k -> keys !! f = Some k) ->
    exists m', add_output st f (keys !! f) m = Some m' /\ forall f k, m' !! f = Some k -> keys !! f = Some k).
  { intros f m0 Hf Hm0. destruct (Hst' f Hf) as (k&Hk&Hs). rewrite Hk. simpl. rewrite Hs. eexists. split; [done|].
    intros f' k' H'. destruct (decide (f' = f)) as [->|?]; [rewrite lookup_insert in H'; congruence|rewrite lookup_insert_ne in H' by done; auto]. }
  unfold item_outputs. simpl.
  assert (S1 : exists m1, match e_stdout e' with Some f => add_output st f (f ← e_stdout e'; keys !! f) m | None => Some m end = Some m1 /\
     forall f k, m1 !! f = Some k -> keys !! f = Some k).
  { destruct (e_stdout e') as [f|] eqn:E; [|eauto]. apply Hadd; [|done]. unfold outputs. rewrite E. rewrite !elem_of_app. left. simpl. left. }
  destruct S1 as (m1&->&Hm1).
  assert (S2 : exists m2, match e_stderr e' with Some f => add_output st f (f ← e_stderr e'; keys !! f) m1 | None => Some m1 end = Some m2 /\
     forall f k, m2 !! f = Some k -> keys !! f = Some k).
  { destruct (e_stderr e') as [f|] eqn:E; [|eauto]. apply Hadd; [|done]. unfold outputs. rewrite E. rewrite !elem_of_app. right. left. simpl. left. }
  destruct S2 as (m2&->&Hm2).
  apply (ofoldl_total _ (fun m : gmap file_uuid store_key => forall f k, m !! f = Some k -> keys !! f = Some k)); [done|].
  intros [p f] m3 Hp Hm3. simpl. rewrite (plookup_rel keys (e_outputs e') os p f) by (try done; by apply Hnd). apply Hadd; [|done].
  unfold outputs. rewrite !elem_of_app. right. right. apply elem_of_list_In, in_map_iff. exists (p, f). split; [done|]. by apply elem_of_list_In.
Qed.
Lemma own_hit checked st g keys results en t m : entry_of_group keys g results = ROk en -> g_execs g <> [] -> made_by_worker g results ->
  extras t m g -> (forall e, e ∈ g_execs g -> NoDup (e_outputs e).*1 /\ memory_fits (e_limits e) m) ->
  (forall f, f ∈ group_outputs g -> exists k, keys !! f = Some k /\ st k = true) ->
  exists outs, entry_outputs st g en = Some outs /\ is_compatible checked g en = Some true /\
    replays g en = map as_cached results /\ forall f, f ∈ group_outputs g -> outs !! f = keys !! f.
Proof.
  intros Hen Hne Hw Hx Hok Hst. destruct (own_outputs st g keys results en Hen (fun e H => proj1 (Hok e H)) Hst) as (outs&Ho&Hsub).
  pose proof (Forall2_length _ _ _ Hw) as Hlen. pose proof (entry_length _ _ _ _ Hen (eq_sym Hlen)) as Hlen2.
  exists outs. split; [done|]. split; [|split].
  - apply (C17_identical_limits checked g en t m); [done|done|]. intros e i Hin. apply elem_of_list_lookup in Hin as (j&Hj).
    apply lookup_zip_with_Some in Hj as (e'&i'&[= -> ->]&Hej&Hij). pose proof (elem_of_list_lookup_2 _ _ _ Hej) as He.
    destruct (entry_item_at _ _ _ _ _ _ Hen Hij) as (e0&r0&He0&Hr0&Hit). rewrite Hej in He0. injection He0 as <-.
    apply item_of_exec_spec in Hit as (os&Hos&->). simpl. destruct (Hx e' He) as [-> ->]. split_and!; try done. by apply Hok.
  - apply list_eq_same_length with (n := length (g_execs g)); [by rewrite map_length|by apply replays_length|].
    intros j x y _ Hxj Hyj. apply replays_at in Hxj as (e&i&He&Hi&->). change (map ?f ?l) with (f <$> l) in Hyj.
    rewrite list_lookup_fmap in Hyj. destruct (results !! j) as [r|] eqn:Er; [|done]. injection Hyj as <-.
    destruct (entry_item_at _ _ _ _ _ _ Hen Hi) as (e0&r0&He0&Hr0&Hit). simplify_eq.
    apply item_of_exec_spec in Hit as (os&Hos&->). simpl. apply worker_replay. by eapply (Forall2_lookup_lr _ _ _ j).
  - intros f Hf. destruct (entry_outputs_fold _ _ _ _ Ho) as (O1&_&_). apply group_output_in in Hf as (e&He&Hf).
    apply elem_of_list_lookup in He as (j&Hj).
    destruct (lookup_lt_is_Some_2 en j) as (i&Hi); [rewrite Hlen2; by eapply lookup_lt_Some|].
    destruct (O1 e i f) as (k&Hk); [by eapply zip_at|done|]. rewrite Hk. symmetry. by apply Hsub.
Qed.

(** C19. After a miss, inserting the results of a worker makes the lookup of the same group return them. *)
Theorem C19_insert_then_get : forall checked st g keys results c c' t m,
  cache_get checked st g keys c = ROk None -> cache_insert g keys results c = ROk c' ->
  storable st g keys results t m ->
  exists outs, cache_get checked st g keys c' = ROk (Some (map as_cached results, outs)) /\
    forall f, f ∈ group_outputs g -> outs !! f = keys !! f.
Proof.
  intros checked st g keys results c c' t m Hmiss Hins (Hne&Hw&Hx&Hok&Hst). unfold cache_get, cache_insert in *.
  destruct (key_of_group keys g) as [k| | |]; try done. simpl in *. destruct (entry_of_group keys g results) as [en| | |] eqn:Een; try done.
  simpl in Hins. injection Hins as <-. rewrite clookup_cupdate.
  destruct (own_hit checked st g keys results en t m Een Hne Hw Hx Hok Hst) as (outs&Ho&Hc&<-&Hf).
  exists outs. split; [|done]. apply search_put; try done. intros x Hin _. by eapply search_miss.
Qed.
Print Assumptions C19_insert_then_get.

Lemma same_limits_iff a b : same_limits a b = true <-> map ei_limits a = map ei_limits b.
Proof.
  unfold same_limits. rewrite andb_true_iff, bool_decide_eq_true. revert b.
  induction a as [|x a IH]; intros [|y b]; simpl; try (split; [intros [? _]; lia || done|done]); try done.
  rewrite andb_true_iff, bool_decide_eq_true. specialize (IH b). split.
  - intros (H1&H2&H3). f_equal; [done|]. apply IH. split; [lia|done].
  - intros [= H1 H2]. apply IH in H2 as [? ?]. split; [lia|done].
Qed.
Lemma entry_limits keys g results en : entry_of_group keys g results = ROk en -> length results = length (g_execs g) ->
  map ei_limits en = map e_limits (g_execs g).
Proof.
  intros H Hl. pose proof (entry_length _ _ _ _ H Hl) as L. apply list_eq_same_length with (n := length (g_execs g)); [by rewrite map_length|by rewrite map_length|].
  intros j x y _. change (map ?f ?l) with (f <$> l). rewrite !list_lookup_fmap. destruct (en !! j) as [i|] eqn:Ei; [|done].
  destruct (entry_item_at _ _ _ _ _ _ H Ei) as (e&r&He&_&Hit). rewrite He. apply item_of_exec_spec in Hit as (os&_&->). simpl. congruence.
Qed.

(** A second insertion with the same limits replaces the first one. *)
Theorem C19_insert_replaces : forall checked st g keys results1 results2 c c1 c2 t m,
  cache_get checked st g keys c = ROk None -> cache_insert g keys results1 c = ROk c1 -> length results1 = length (g_execs g) ->
  cache_insert g keys results2 c1 = ROk c2 -> storable st g keys results2 t m ->
  exists outs, cache_get checked st g keys c2 = ROk (Some (map as_cached results2, outs)) /\
    forall f, f ∈ group_outputs g -> outs !! f = keys !! f.
Proof.
  intros checked st g keys r1 r2 c c1 c2 t m Hmiss Hins1 Hl1 Hins2 (Hne&Hw&Hx&Hok&Hst). unfold cache_get, cache_insert in *.
  destruct (key_of_group keys g) as [k| | |]; try done. simpl in *. destruct (entry_of_group keys g r1) as [en1| | |] eqn:E1; try done.
  simpl in Hins1. injection Hins1 as <-. destruct (entry_of_group keys g r2) as [en2| | |] eqn:E2; try done.
  simpl in Hins2. injection Hins2 as <-. rewrite !clookup_cupdate.
  destruct (own_hit checked st g keys r2 en2 t m E2 Hne Hw Hx Hok Hst) as (outs&Ho&Hc&<-&Hf).
  exists outs. split; [|done]. apply search_put; try done. intros x Hin Hs. apply put_entry_elem in Hin as [->|Hin]; [|by eapply search_miss].
  exfalso. assert (same_limits en1 en2 = true); [|congruence]. apply same_limits_iff.
  rewrite (entry_limits _ _ _ _ E1 Hl1). symmetry. apply (entry_limits _ _ _ _ E2). symmetry. by eapply Forall2_length.
Qed.
Print Assumptions C19_insert_replaces.

(** Lookups with other keys are not affected. *)
Theorem C19_other_keys : forall checked st g keys results c c' g' keys',
  cache_insert g keys results c = ROk c' -> key_of_group keys' g' <> key_of_group keys g ->
  cache_get checked st g' keys' c' = cache_get checked st g' keys' c.
Proof.
  intros checked st g keys results c c' g' keys' Hins Hne. unfold cache_get, cache_insert in *.
  destruct (key_of_group keys g) as [k| | |]; try done. simpl in Hins. destruct (entry_of_group keys g results) as [en| | |]; try done.
  simpl in Hins. injection Hins as <-. destruct (key_of_group keys' g') as [k'| | |]; try done. simpl.
  rewrite clookup_cupdate_ne; [done|]. congruence.
Qed.
Print Assumptions C19_other_keys.

(** There is at most one entry for each key and limits. *)
Lemma put_entry_unique en es : (forall i j a b, es !! i = Some a -> es !! j = Some b -> map ei_limits a = map ei_limits b -> i = j) ->
  forall i j a b, put_entry en es !! i = Some a -> put_entry en es !! j = Some b -> map ei_limits a = map ei_limits b -> i = j.
Proof.
  induction es as [|x es IH]; intros Hu i j a b.
  - cbn [put_entry]. intros Ha Hb _. apply list_lookup_singleton_Some in Ha as [-> _], Hb as [-> _]. done.
  - cbn [put_entry]. destruct (same_limits x en) eqn:E.
    + apply same_limits_iff in E. destruct i as [|i], j as [|j]; simpl; intros Ha Hb Hl; [done| | |].
      * injection Ha as <-. rewrite <- E in Hl. by apply (Hu 0 (S j) x b).
      * injection Hb as <-. rewrite <- E in Hl. by apply (Hu (S i) 0 a x).
      * f_equal. cut (S i = S j); [lia|]. by eapply Hu.
    + assert (Hu' : forall i j a b, es !! i = Some a -> es !! j = Some b -> map ei_limits a = map ei_limits b -> i = j).
      { intros i' j' a' b' H1 H2 H3. cut (S i' = S j'); [lia|]. by eapply Hu. }
      assert (Hx : forall n y, put_entry en es !! n = Some y -> map ei_limits x = map ei_limits y -> False).
      { intros n y Hy Hl. apply elem_of_list_lookup_2 in Hy. apply put_entry_elem in Hy as [->|Hy].
        - apply same_limits_iff in Hl. congruence.
        - apply elem_of_list_lookup in Hy as (n'&Hn). specialize (Hu 0 (S n') x y eq_refl Hn Hl). done. }
      destruct i as [|i], j as [|j]; simpl; intros Ha Hb Hl; [done| | |].
      * injection Ha as <-. exfalso. by eapply Hx.
      * injection Hb as <-. exfalso. by eapply Hx.
      * f_equal. by eapply (IH Hu').
Qed.
Theorem C19_one_entry_per_limits : forall h c k i j a b, built (fun _ => True) h c ->
  clookup k c !! i = Some a -> clookup k c !! j = Some b -> map ei_limits a = map ei_limits b -> i = j.
Proof.
  intros h c k i j a b Hb. revert k i j a b. induction Hb as [|h c g keys results c' Hb IH _ Hins]; [done|].
  unfold cache_insert in Hins. destruct (key_of_group keys g) as [k0| | |]; try done. simpl in Hins.
  destruct (entry_of_group keys g results) as [en| | |]; try done. simpl in Hins. injection Hins as <-.
  intros k i j a b. destruct (decide (k = k0)) as [->|Hne].
  - rewrite clookup_cupdate. apply put_entry_unique. apply IH.
  - rewrite clookup_cupdate_ne by done. apply IH.
Qed.
Print Assumptions C19_one_entry_per_limits.

(** A group with an output file, a stdout and two executions meets the hypotheses of C19 and C20. *)
Definition c19_exec (id : positive) (f o : file_uuid) : execution :=
  Execution id (System "sol") ["tm_pipes/7"] None (Some o) None None None [] [("out.txt", f)] None None None [] []
  (Limits (Some 10%Z) None None (Some 100%Z) false None None None None true false false []) ex_config None 0.
Definition c19_group : group := Group 1 [c19_exec 1 11 12; c19_exec 2 13 14] [7%positive].
Definition c19_keys : gmap file_uuid store_key := {[11%positive := 1%positive; 12%positive := 2%positive; 13%positive := 3%positive; 14%positive := 4%positive]}.
Example C19_example : exists c',
  cache_get true (fun _ => true) c19_group c19_keys [] = ROk None /\
  cache_insert c19_group c19_keys [used 4 Success; used 11 TimeLimitExceeded] [] = ROk c' /\
  storable (fun _ => true) c19_group c19_keys [used 4 Success; used 11 TimeLimitExceeded] 0 0 /\
  built all_results [(c19_group, c19_keys, [used 4 Success; used 11 TimeLimitExceeded])] c'.
Proof.
  eexists. split; [done|]. split; [vm_compute; reflexivity|]. split.
  - split; [done|]. split; [|split; [|split]].
    + repeat constructor.
      * exists 0%Z, None. unfold verdict, over. simpl. split_and!; try done; intros (?&?&?); simplify_eq; lia.
      * exists 0%Z, None. simpl. eexists. split; [done|]. simpl. lia.
    + intros e He. repeat (apply elem_of_cons in He as [->|He]; [done|]). by apply not_elem_of_nil in He.
    + intros e He. repeat (apply elem_of_cons in He as [->|He]; [split; [apply NoDup_singleton|by vm_compute]|]). by apply not_elem_of_nil in He.
    + intros f Hf. repeat (apply elem_of_cons in Hf as [->|Hf]; [eexists; split; vm_compute; reflexivity|]). by apply not_elem_of_nil in Hf.
  - econstructor; [constructor|done|vm_compute; reflexivity].
Qed.
