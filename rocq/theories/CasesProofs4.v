(** * CasesProofs4: gen/cases.gen, the dependencies and the whole file *)
From Verif Require Import CasesSpec FormatProofs FormatProofs2 FormatProofs3 FormatProofs4 CasesProofs CasesProofs2 CasesProofs3.

Lemma assemble_entry l a1 : assemble_run a0 l = Some a1 -> forall s1 id, flush_last a1 !! id = Some s1 -> ESubtask (st_info s1) ∈ l.
Proof.
  revert a1. induction l as [|e l IH] using rev_ind; intros a1 Ha s1 id Hs1; [injection Ha as <-; cbn in Hs1; by rewrite lookup_empty in Hs1|].
  rewrite assemble_snoc in Ha. destruct (assemble_run a0 l) as [a2|]; [|done]. cbn in Ha. apply elem_of_app. destruct e as [e|t]; cbn in Ha.
  - injection Ha as <-. unfold flush_last in Hs1 at 1. cbn in Hs1. apply lookup_insert_Some in Hs1 as [[_ <-]|[_ H]]; [right; left|left; by eapply IH].
  - destruct (as_last a2) as [s2|] eqn:El; [|done]. cbn in Ha. injection Ha as <-. unfold flush_last in Hs1 at 1. cbn in Hs1. left. apply lookup_insert_Some in Hs1 as [[_ <-]|[Hne H]].
    + cbn. apply (IH a2 eq_refl s2 (se_id (st_info s2))). unfold flush_last. rewrite El. apply lookup_insert.
    + apply (IH a2 eq_refl s1 id). unfold flush_last. rewrite El. by rewrite lookup_insert_ne.
Qed.
Lemma nth_subtask ls id : id < subtasks_in ls -> exists b sc d a, ls = b ++ CSubtask sc d :: a /\ subtasks_in b = id.
Proof.
  induction ls as [|x ls IH] using rev_ind; [unfold subtasks_in; cbn; lia|]. rewrite subtasks_in_snoc. intros H. destruct (decide (id < subtasks_in ls)) as [Hlt|Hge].
  - destruct (IH Hlt) as (b & sc & d & a & -> & Hb). exists b, sc, d, (a ++ [x]). by rewrite <- app_assoc.
  - destruct (opens x) eqn:Ho; [|lia]. destruct x as [| | |sc d| | | | | |]; try done. exists ls, sc, d, []. split; [done|lia].
Qed.
Lemma split_unique ls b b' sc sc' d d' a a' : ls = b ++ CSubtask sc d :: a -> ls = b' ++ CSubtask sc' d' :: a' -> subtasks_in b = subtasks_in b' -> b = b' /\ sc = sc' /\ d = d'.
Proof.
  intros -> H Heq. revert b' H Heq. induction b as [|x b IH]; intros [|y b'] H Heq; rewrite ?subtasks_in_cons in Heq.
  - cbn in H. by injection H as -> -> _.
  - exfalso. cbn in H. injection H as <- _. cbn in Heq. change (subtasks_in []) with 0 in Heq. lia.
  - exfalso. cbn in H. injection H as -> _. cbn in Heq. change (subtasks_in []) with 0 in Heq. lia.
  - cbn in H. injection H as <- H. destruct (IH b' H ltac:(lia)) as (-> & -> & ->). done.
Qed.
Section cases_file.
  Context (split : text -> option (list text)) (exists_file known : text -> bool) (get_output : nat -> output_gen) (file_name : text).
  Notation run := (cases_run split exists_file known get_output file_name).
  Notation K := (K split get_output file_name).
  Notation LineOk := (CasesLineOk split exists_file known file_name).
  Notation Task := (CasesTask split get_output file_name).
  Lemma K_names_bound ls s a d j : K ls s a -> cs_names s !! d = Some j -> j < cs_subtask_id s.
  Proof. intros HK H. apply (k_names _ _ _ _ _ _ HK) in H. rewrite (k_st _ _ _ _ _ _ HK). eapply somewhere_subtask_bound. eapply somewhere_impl; [|exact H]. intros b l af _ (sc & dd & -> & _ & ?). by exists sc, dd. Qed.
  Lemma K_named ls s a f n id : K ls s a -> G split get_output file_name ls f (as_testcases a) -> cs_names s !! n = Some id <-> exists s', f !! id = Some s' /\ se_name (st_info s') = Some n.
  Proof.
    intros HK HG. rewrite (k_names _ _ _ _ _ _ HK). split.
    - intros (b & l & af & Hb & sc & d & -> & Hn & Hid). assert (is_Some (f !! id)) as [s' Hs'].
      { apply (g_ids _ _ _ _ _ _ HG). rewrite Hb, subtasks_in_app, subtasks_in_cons. cbn. lia. }
      exists s'. split; [done|]. destruct (g_info _ _ _ _ _ _ HG id s' Hs') as (_ & _ & _ & b' & l' & af' & Hb' & d' & -> & Hn' & Hid').
      destruct (split_unique _ _ _ _ _ _ _ _ _ Hb Hb') as (_ & _ & <-); [lia|]. congruence.
    - intros (s' & Hs' & Hn). destruct (g_info _ _ _ _ _ _ HG id s' Hs') as (_ & _ & _ & b' & l' & af' & Hb' & d' & -> & Hn' & Hid').
      exists b', (CSubtask (se_score (st_info s')) d'), af'. split; [done|]. exists (se_score (st_info s')), d'. split_and!; [done|congruence|done].
  Qed.
  Lemma cases_task ls s a es : K ls s a -> mapM (resolve_entry (cs_names s) (cs_subtask_id s) (cs_deps s)) (cs_result s) = Some es ->
    exists sts tcs, assemble es = Some (sts, tcs) /\ Task ls sts tcs.
  Proof.
    intros HK Hm. destruct (assemble_resolved _ _ _ _ _ _ (k_run _ _ _ _ _ _ HK) Hm) as (a' & Ha' & Hsame).
    exists (flush_last a'), (as_testcases a'). split; [unfold assemble; by rewrite (Ha' : assemble_run (Assembly ∅ ∅ None) es = Some a')|].
    pose proof (same_flush _ _ _ _ _ Hsame) as Hf. destruct Hsame as (Ht & _ & _). pose proof (k_G _ _ _ _ _ _ HK) as HG.
    assert (forall id s', flush_last a' !! id = Some s' -> exists s0, flush_last a !! id = Some s0 /\ resolved (cs_names s) (cs_subtask_id s) (cs_deps s) s0 s') as Hback.
    { intros id s' Hs'. specialize (Hf id). rewrite Hs' in Hf. inversion Hf; subst. eauto. }
    assert (forall s0 s', resolved (cs_names s) (cs_subtask_id s) (cs_deps s) s0 s' -> se_name (st_info s') = se_name (st_info s0) /\ se_score (st_info s') = se_score (st_info s0) /\
      se_default (st_info s') = se_default (st_info s0) /\ se_validator (st_info s') = se_validator (st_info s0) /\ se_id (st_info s') = se_id (st_info s0)) as Hsame.
    { intros s0 s' (_ & _ & H). cbn [resolve_entry] in H. destruct (cs_deps s !! se_id (st_info s0)) as [ds|]; [|injection H as <-; done].
      destruct (resolve _ _ _ _); [|done]. cbn in H. injection H as <-. done. }
    assert (forall id s0 s', flush_last a !! id = Some s0 -> resolved (cs_names s) (cs_subtask_id s) (cs_deps s) s0 s' ->
      StronglySorted lt (se_deps (st_info s')) /\ forall j, j ∈ se_deps (st_info s') <-> exists d, d ∈ default [] (cs_deps s !! id) /\ ((d = chars "*" /\ j < cs_subtask_id s) \/ (d <> chars "*" /\ cs_names s !! d = Some j))) as Hdeps.
    { intros id s0 s' Hs0 (_ & _ & H). destruct (g_info _ _ _ _ _ _ HG id s0 Hs0) as (Hid & _ & Hd0 & _). cbn [resolve_entry] in H. rewrite Hid, Hd0 in H.
      destruct (cs_deps s !! id) as [ds|].
      - destruct (resolve (cs_names s) (cs_subtask_id s) ds []) as [ids|] eqn:Er; [|done]. cbn in H. injection H as <-. cbn [se_deps default from_option Datatypes.id].
        apply resolve_Some in Er as [H1 H2]; [|by intros x ?%elem_of_nil|intros d j; by apply (K_names_bound ls s a)]. split; [done|]. intros j. rewrite H2. split; [|by right]. intros [?%elem_of_nil|?]; done.
      - injection H as <-. cbn. rewrite Hd0. split; [constructor|]. intros j. split; [by intros ?%elem_of_nil|]. intros (d & ?%elem_of_nil & _). done. }
    split.
    - intros id. rewrite <- (g_ids _ _ _ _ _ _ HG id). specialize (Hf id). inversion Hf; [split; by eexists|done].
    - intros id s' Hs'. destruct (Hback _ _ Hs') as (s0 & Hs0 & Hr). destruct (Hsame _ _ Hr) as (-> & -> & -> & _ & ->). by destruct (g_info _ _ _ _ _ _ HG id s0 Hs0) as (? & ? & _ & ?).
    - intros id s' Hs'. destruct (Hback _ _ Hs') as (s0 & Hs0 & Hr). destruct (Hsame _ _ Hr) as (-> & _ & _ & -> & _). exact (g_validator _ _ _ _ _ _ HG id s0 Hs0).
    - intros id s' k Hs'. destruct (Hback _ _ Hs') as (s0 & Hs0 & Hr). destruct Hr as (_ & -> & _). by apply (g_owned _ _ _ _ _ _ HG).
    - intros id s' Hs'. destruct (Hback _ _ Hs') as (s0 & Hs0 & Hr). destruct Hr as (-> & -> & _). by apply (g_sorted _ _ _ _ _ _ HG id).
    - rewrite Ht. apply (g_testcases _ _ _ _ _ _ HG).
    - intros id s' j Hs'. destruct (Hback _ _ Hs') as (s0 & Hs0 & Hr). destruct (Hdeps _ _ _ Hs0 Hr) as [_ Hd]. rewrite Hd.
      assert (forall d, cs_names s !! d = Some j <-> exists s1, flush_last a' !! j = Some s1 /\ se_name (st_info s1) = Some d) as Hnm.
      { intros d. rewrite (K_named ls s a _ d j HK HG). split.
        - intros (s1 & H1 & H2). pose proof (Hf j) as Hfj. rewrite H1 in Hfj. destruct (flush_last a' !! j) as [s2|]; [|inversion Hfj]. assert (resolved (cs_names s) (cs_subtask_id s) (cs_deps s) s1 s2) as H3 by (by inversion Hfj). exists s2. split; [done|]. by destruct (Hsame _ _ H3) as (-> & _).
        - intros (s1 & H1 & H2). destruct (Hback _ _ H1) as (s2 & H3 & Hr2). exists s2. split; [done|]. by destruct (Hsame _ _ Hr2) as (<- & _). }
      rewrite (k_st _ _ _ _ _ _ HK). split.
      + intros (d & Hin & Hc). apply (k_deps _ _ _ _ _ _ HK) in Hin. eapply somewhere_impl; [|exact Hin]. intros b l af _ (ds & -> & Hid & Hdd). exists ds, d. split_and!; [done..|]. by rewrite <- Hnm.
      + intros (b & l & af & Hb & ds & d & -> & Hid & Hdd & Hc). exists d. split; [|by rewrite Hnm]. apply (k_deps _ _ _ _ _ _ HK). exists b, (CDeps ds), af. split; [done|]. by exists ds.
    - intros id s' Hs'. destruct (Hback _ _ Hs') as (s0 & Hs0 & Hr). by destruct (Hdeps _ _ _ Hs0 Hr) as [? _].
  Qed.
  Lemma cases_accepted ls : Forall constraint_shape ls ->
    is_Some (s ← run cases_init ls; mapM (resolve_entry (cs_names s) (cs_subtask_id s) (cs_deps s)) (cs_result s)) <-> CasesOk split exists_file known file_name ls.
  Proof.
    intros Hsh. destruct (cases_run_spec split exists_file known get_output file_name ls Hsh) as [R1 R2]. destruct (run cases_init ls) as [s|] eqn:Hs.
    2:{ split; [by intros []|]. intros [H _]. by apply R1 in H as [? ?]. }
    destruct (R2 s eq_refl) as (Hok & a & HK). cbn [mbind option_bind]. pose proof (k_G _ _ _ _ _ _ HK) as HG.
    assert (forall d, somewhere (fun _ l => exists sc d', l = CSubtask sc d' /\ name_of d' = Some d) ls <-> is_Some (cs_names s !! d)) as Hnm.
    { intros d. split.
      - intros (b & l & af & Hb & sc & d' & -> & Hn). exists (subtasks_in b). apply (k_names _ _ _ _ _ _ HK). exists b, (CSubtask sc d'), af. split; [done|]. by exists sc, d'.
      - intros [id H]. apply (k_names _ _ _ _ _ _ HK) in H. eapply somewhere_impl; [|exact H]. intros b l af _ (sc & d' & -> & ? & _). by exists sc, d'. }
    transitivity (forall id d, d ∈ default [] (cs_deps s !! id) -> d = chars "*" \/ is_Some (cs_names s !! d)).
    - rewrite mapM_is_Some. rewrite Forall_forall. split.
      + intros H id d Hd. assert (is_Some (flush_last a !! id)) as [s1 Hs1].
        { apply (k_deps _ _ _ _ _ _ HK) in Hd as (b & l & af & Hb & ds & _ & Hid & _). apply (g_ids _ _ _ _ _ _ HG). apply prefix_bound in Hb. lia. }
        pose proof (assemble_entry _ _ (k_run _ _ _ _ _ _ HK) s1 id Hs1) as He. destruct (g_info _ _ _ _ _ _ HG id s1 Hs1) as (Hid & _ & He0 & _).
        specialize (H _ He). unfold compose in H. cbn [resolve_entry] in H. rewrite Hid in H. destruct (cs_deps s !! id) as [ds|]; [|by apply elem_of_nil in Hd]. cbn in Hd.
        destruct (resolve (cs_names s) (cs_subtask_id s) ds (se_deps (st_info s1))) as [ids|] eqn:Er; [|by destruct H]. eapply resolve_is_Some; [by eexists|exact Hd].
      + intros H e He. unfold compose. destruct e as [e|t]; [|by eexists]. cbn [resolve_entry]. destruct (cs_deps s !! se_id e) as [ds|] eqn:Ed; [|by eexists].
        assert (is_Some (resolve (cs_names s) (cs_subtask_id s) ds (se_deps e))) as [ids ->]; [|by eexists]. apply resolve_is_Some. intros d Hd. apply (H (se_id e)). by rewrite Ed.
    - split.
      + intros H. split; [done|]. intros b l af Hb ds d -> Hd. pose proof (Hok _ _ _ Hb) as Hh. cbn in Hh. destruct Hh as [->|Hh]; [by apply elem_of_nil in Hd|]. apply after_subtask_inside in Hh.
        destruct (H (subtasks_in b - 1) d) as [?|Hid]; [|by left|right; by apply Hnm].
        apply (k_deps _ _ _ _ _ _ HK). exists b, (CDeps ds), af. split; [done|]. exists ds. split_and!; [done|lia|done].
      + intros [_ H] id d Hd. apply (k_deps _ _ _ _ _ _ HK) in Hd as (b & l & af & Hb & ds & -> & _ & Hd). destruct (H _ _ _ Hb ds d eq_refl Hd) as [?|Hj]; [by left|]. right. by apply Hnm.
  Qed.
  Lemma line_shape t l : CasesLine t l -> constraint_shape l.
  Proof.
    intros H. destruct H as [r|b t l c _ Hc _|t c _ _ _|]; try done. destruct Hc; try done. cbn. split; [by eapply comparison_alt|done].
  Qed.
  Lemma lines_shape ts ls : Forall2 CasesLine ts ls -> Forall constraint_shape ls.
  Proof. induction 1; constructor; [by eapply line_shape|done]. Qed.
End cases_file.
