(** * MiscProps2: C53 *)
From Coq Require Import Ascii.
From Verif Require Import MiscSpec.
From Verif Require Import CheckDagProps SchedSpec SchedSteps SchedAux SchedProps SchedExamples.

(** ** The list *)
Lemma get_cons c x i : String.get (S i) (String c x) = String.get i x.
Proof. done. Qed.
Lemma split_on_separated s : comma_separated s (split_on ","%char s).
Proof.
  induction s as [|c s IH]; [split_and!; [done..|]; intros x ->%elem_of_list_singleton [|i]; done|].
  cbn [split_on]. destruct IH as (Hne & Hc & Hg). destruct (decide (c = ","%char)) as [->|Hcomma].
  - split_and!; [done| |].
    + destruct (split_on _ s) as [|x l]; [done|]. cbn [String.concat] in Hc |- *. rewrite Hc. done.
    + intros x Hx. apply elem_of_cons in Hx as [->|Hx]; [by intros [|i]|by apply Hg].
  - destruct (split_on _ s) as [|x l] eqn:E; [done|]. split_and!; [done| |].
    + cbn [String.concat] in Hc |- *. destruct l; rewrite <- Hc; done.
    + intros y Hy i. apply elem_of_cons in Hy as [->|Hy]; [|by apply Hg; right]. destruct i as [|i]; [cbn; congruence|]. rewrite get_cons. apply Hg. left.
Qed.
Lemma no_comma_app x y x' y' : (forall i, String.get i x <> Some ","%char) -> (forall i, String.get i x' <> Some ","%char) ->
  (x +:+ String "," y = x' +:+ String "," y')%string -> x = x' /\ y = y'.
Proof.
  revert x'. induction x as [|c x IH]; intros [|c' x'] Hx Hx' H.
  - by injection H.
  - injection H as <- _. by destruct (Hx' 0).
  - injection H as -> _. by destruct (Hx 0).
  - injection H as -> H. destruct (IH x') as [-> ->]; [intros i; apply (Hx (S i))|intros i; apply (Hx' (S i))|exact H|done].
Qed.
Lemma no_comma_alone x x' y' : (forall i, String.get i x <> Some ","%char) -> x <> (x' +:+ String "," y')%string.
Proof. revert x. induction x' as [|c' x' IH]; intros x Hx ->; [by destruct (Hx 0)|]. eapply IH; [|reflexivity]. intros i. apply (Hx (S i)). Qed.
Lemma separated_unique s l l' : comma_separated s l -> comma_separated s l' -> l = l'.
Proof.
  intros (Hl & <- & Hg) (Hl' & H & Hg'). revert l' Hl' H Hg'. induction l as [|x l IH]; [done|]. intros [|x' l'] Hl' H Hg'; [done|].
  assert (forall i, String.get i x <> Some ","%char) as Hx by (apply Hg; left). assert (forall i, String.get i x' <> Some ","%char) as Hx' by (apply Hg'; left).
  destruct l as [|y l], l' as [|y' l']; cbn [String.concat] in H.
  - by subst.
  - exfalso. eapply (no_comma_alone x); [done|]. symmetry. exact H.
  - exfalso. eapply (no_comma_alone x'); [done|]. exact H.
  - apply no_comma_app in H as [-> H]; [|done..]. f_equal. apply IH; [done|intros z Hz; apply Hg; by right|done|done|intros z Hz; apply Hg'; by right].
Qed.
Theorem C53_list s : exists l, comma_separated s l /\ forall l', comma_separated s l' -> l' = l.
Proof. exists (split_on ","%char s). split; [apply split_on_separated|]. intros l' H. eapply separated_unique; [exact H|apply split_on_separated]. Qed.

(** No option: everything is cached; the option without a list: nothing; with a list of known tags: all but those; with an
    unknown tag: an error. *)
Theorem C53_mode valid :
  cache_mode_of None valid = Some CacheEverything /\ cache_mode_of (Some None) valid = Some CacheNothing /\
  forall s l, comma_separated s l ->
    ((forall t, t ∈ l -> t ∈ valid) -> exists tags, cache_mode_of (Some (Some s)) valid = Some (CacheExcept tags) /\ forall t, t ∈ tags <-> t ∈ l) /\
    (cache_mode_of (Some (Some s)) valid = None <-> exists t, t ∈ l /\ t ∉ valid).
Proof.
  split; [done|]. split; [done|]. intros s l Hl. rewrite (separated_unique s l (split_on ","%char s) Hl (split_on_separated s)) in *. clear Hl.
  unfold cache_mode_of. set (tags := list_to_set (split_on ","%char s) : gset string).
  assert (forall t, t ∈ tags <-> t ∈ split_on ","%char s) as Ht by (intros t; apply elem_of_list_to_set).
  assert (forallb (fun t => bool_decide (t ∈ valid)) (elements tags) = true <-> forall t, t ∈ split_on ","%char s -> t ∈ valid) as Hf.
  { rewrite forallb_forall. split.
    - intros H t H1. specialize (H t). rewrite <- elem_of_list_In, elem_of_elements, Ht in H. specialize (H H1). by apply bool_decide_eq_true in H.
    - intros H t H1. rewrite <- elem_of_list_In, elem_of_elements, Ht in H1. by apply bool_decide_eq_true, H. }
  split.
  - intros H. rewrite (proj2 Hf H). by exists tags.
  - destruct (forallb _ _) eqn:E; split.
    + done.
    + intros (t & H1 & H2). by destruct H2; apply (proj1 Hf eq_refl).
    + intros _. assert (~ (forall t, t ∈ split_on ","%char s -> t ∈ valid)) as E' by (rewrite <- Hf; done).
      destruct (decide (Exists (fun t => t ∉ valid) (split_on ","%char s))) as [H|H]; [by apply Exists_exists in H|].
      destruct E'. intros t Hin. destruct (decide (t ∈ valid)); [done|]. destruct H. apply Exists_exists. by exists t.
    + done.
Qed.

(** ** The scheduler *)
(** The flag forbids the use of the cache for a group. *)
Definition excluded (flag : option (option string)) (gr : group) : Prop :=
  flag = Some None \/ exists s l e rest t, flag = Some (Some s) /\ comma_separated s l /\ g_execs gr = e :: rest /\ e_tag e = Some t /\ t ∈ l.
Lemma excluded_not_allowed flag valid d gr : cache_mode_of flag valid = Some (cfg_cache_mode (d_config d)) -> excluded flag gr -> ~ cache_allowed d gr.
Proof.
  intros Hm [->|(s & l & e & rest & t & -> & Hl & He & Ht & Hin)] Ha.
  - unfold cache_allowed in Ha. injection Hm as Hm. by rewrite <- Hm in Ha.
  - destruct (proj2 (proj2 (C53_mode valid)) s l Hl) as [H1 H2].
    destruct (decide (Forall (fun t => t ∈ valid) l)) as [Hv|Hv].
    + rewrite Forall_forall in Hv. destruct (H1 Hv) as (tags & E & Htags). rewrite E in Hm. injection Hm as Hm. unfold cache_allowed in Ha. rewrite <- Hm in Ha.
      by eapply Ha; [exact He|exact Ht|apply Htags].
    + rewrite (proj2 H2) in Hm; [done|]. apply not_Forall_Exists in Hv; [|apply _]. by apply Exists_exists in Hv.
Qed.
Lemma fst_unique {A B} (l : list (A * B)) a b b' : NoDup l.*1 -> (a, b) ∈ l -> (a, b') ∈ l -> b = b'.
Proof.
  intros HN H1 H2. induction l as [|[x y] l IH]; [by apply elem_of_nil in H1|]. cbn in HN. apply NoDup_cons in HN as [Hx HN].
  apply elem_of_cons in H1 as [H1|H1]; apply elem_of_cons in H2 as [H2|H2]; [congruence| | |by apply IH].
  - injection H1 as -> ->. destruct Hx. apply elem_of_list_fmap. by exists (x, b').
  - injection H2 as -> ->. destruct Hx. apply elem_of_list_fmap. by exists (x, b).
Qed.
(** No result of an excluded group comes from the cache. *)
Theorem C53_never_from_cache env s flag c d cb g gr results outs : env_ok env -> reachable env s ->
  ERecv (EvaluateDAG c d cb) ∈ s_log s -> cache_mode_of flag valid_tags = Some (cfg_cache_mode (d_config d)) ->
  (g, gr) ∈ d_groups d -> excluded flag gr -> ECompleted c g true results outs ∉ s_log s.
Proof.
  intros Henv Hr Hev Hm Hg Hex Hin. destruct (log_justified_in env s Henv Hr _ Hin) as (l1 & l2 & E & (d' & cb' & gr' & Hev' & Hg' & _ & _ & _ & Ha & _)).
  assert (ERecv (EvaluateDAG c d' cb') ∈ s_log s) as Hev2 by (rewrite E, elem_of_app; by left).
  destruct (submitted_unique env s Henv Hr c d cb d' cb' Hev Hev2) as [-> ->].
  pose proof (submitted_valid env s Henv Hr c d cb Hev) as [[_ [Hnd _]] _].
  assert (gr' = gr) as -> by exact (fst_unique _ _ _ _ Hnd Hg' Hg). by eapply excluded_not_allowed.
Qed.
(** The cache is not even looked at: what is done with the queue entry does not depend on its content. *)
Theorem C53_not_looked_up env env' s nc hits en cl gr flag :
  s_clients s !! en_client en = Some cl -> alookup (en_group en) (d_groups (cl_dag cl)) = Some gr ->
  cache_mode_of flag valid_tags = Some (cfg_cache_mode (d_config (cl_dag cl))) -> excluded flag gr ->
  collect_one env (s, nc, hits) en = collect_one env' (s, nc, hits) en /\
  exists en', collect_one env (s, nc, hits) en = ROk (s, en' :: nc, hits).
Proof.
  intros Hc Hg Hm Hex. unfold collect_one. rewrite Hc. destruct Hex as [->|(s0 & l & e & rest & t & -> & Hl & He & Ht & Hin)].
  - injection Hm as Hm. rewrite <- Hm. eauto.
  - destruct (proj2 (proj2 (C53_mode valid_tags)) s0 l Hl) as [H1 H2].
    destruct (decide (Forall (fun t => t ∈ valid_tags) l)) as [Hv|Hv].
    2:{ rewrite (proj2 H2) in Hm; [done|]. apply not_Forall_Exists in Hv; [|apply _]. by apply Exists_exists in Hv. }
    rewrite Forall_forall in Hv. destruct (H1 Hv) as (tags & E & Htags). rewrite E in Hm. injection Hm as Hm. rewrite <- Hm, Hg.
    unfold is_cacheable, group_tag. rewrite He. cbn. rewrite Ht, bool_decide_eq_true_2 by (by apply Htags). cbn. eauto.
Qed.

(** Only the first execution of a group counts: one that has an excluded tag, but is not the first, comes from the cache. *)
Definition tagged (e : execution) (t : string) : execution :=
  Execution (e_uuid e) (e_command e) (e_args e) (e_stdin e) (e_stdout e) (e_stderr e) (e_capture_stdout e) (e_capture_stderr e) (e_inputs e) (e_outputs e)
    (e_stdin_redirect e) (e_stdout_redirect e) (e_stderr_redirect e) (e_env e) (e_copy_env e) (e_limits e) (e_config e) (Some t) (e_priority e).
Definition two_tags : dag := Dag [] [(1%positive, Group 1 [tagged (ex_exec 1 None (Some 1%positive) [] []) "checking"; tagged (ex_exec 2 None (Some 2%positive) [] []) "evaluation"] [])]
  (DagConfig false (default CacheNothing (cache_mode_of (Some (Some "evaluation,generation")) valid_tags)) 0 0 0).
Theorem C53_other_executions_refuted : exists env s c d cb g gr e results outs, env_ok env /\ reachable env s /\ ERecv (EvaluateDAG c d cb) ∈ s_log s /\
  cache_mode_of (Some (Some "evaluation,generation")) valid_tags = Some (cfg_cache_mode (d_config d)) /\ (g, gr) ∈ d_groups d /\
  e ∈ g_execs gr /\ e_tag e = Some "evaluation" /\ ECompleted c g true results outs ∈ s_log s.
Proof.
  exists env1, (final env1 [EvaluateDAG 1 two_tags (WatchSet [] [] [])]), 1%positive, two_tags, (WatchSet [] [] []), 1%positive.
  do 4 eexists. split_and!; [apply env1_ok|apply final_reachable| |done|left| | |].
  - vm_compute s_log. left.
  - right. left.
  - done.
  - vm_compute s_log. right. left.
Qed.
(** With the option and an empty text (--no-cache=) nothing is disabled: it is an error, and so are spaces. *)
Theorem C53_empty_list_rejected : cache_mode_of (Some (Some "")) valid_tags = None /\ cache_mode_of (Some (Some "evaluation, generation")) valid_tags = None.
Proof. split; by vm_compute. Qed.
(** A case that meets the hypotheses of [C53_never_from_cache] with a cache that knows the group. *)
Definition one_tag : dag := Dag [] [(1%positive, Group 1 [tagged (ex_exec 1 None (Some 1%positive) [] []) "evaluation"] []); (2%positive, Group 2 [tagged (ex_exec 2 None (Some 2%positive) [] []) "checking"] [])]
  (DagConfig false (default CacheNothing (cache_mode_of (Some (Some "evaluation,generation")) valid_tags)) 0 0 0).
Theorem C53_example : let s := final env1 [EvaluateDAG 1 one_tag (WatchSet [] [] [])] in
  reachable env1 s /\ cache_mode_of (Some (Some "evaluation,generation")) valid_tags = Some (cfg_cache_mode (d_config one_tag)) /\
  (exists gr, (1%positive, gr) ∈ d_groups one_tag /\ excluded (Some (Some "evaluation,generation")) gr) /\
  map brief_of (s_log s) = [BRecv; BCompleted 2 true].
Proof.
  split; [apply final_reachable|]. split; [done|]. split; [|by vm_compute].
  eexists. split; [left|]. right. exists "evaluation,generation", ["evaluation"; "generation"]. do 3 eexists. split_and!; [done| |done|done|left].
  exact (split_on_separated "evaluation,generation").
Qed.
Print Assumptions C53_mode.
Print Assumptions C53_never_from_cache.
Print Assumptions C53_not_looked_up.
