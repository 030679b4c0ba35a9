(** * FormatProofs4: gen/GEN, the dependencies and the whole file *)
From Verif Require Import FormatSpec FormatProofs FormatProofs2 FormatProofs3.

Lemma dedup_sorted (l : list nat) : StronglySorted le l -> StronglySorted lt (dedup_nat l) /\ (forall j, j ∈ dedup_nat l <-> j ∈ l) /\ head (dedup_nat l) = head l.
Proof.
  induction 1 as [|x l Hl (IH1 & IH2 & IH3) Hx]; [split_and!; [constructor|done|done]|]. cbn [dedup_nat].
  destruct (dedup_nat l) as [|y l'] eqn:E.
  - assert (l = []) as -> by (by destruct l). split_and!; [repeat constructor|done|done].
  - assert (x <= y) as Hxy. { rewrite Forall_forall in Hx. apply Hx, IH2. left. }
    destruct (decide (x = y)) as [->|Hne].
    + split_and!; [done| |done]. intros j. rewrite IH2, elem_of_cons. split; [by right|]. intros [->|?]; [|done]. apply IH2. left.
    + split_and!; [|intros j; rewrite !(elem_of_cons _ _ x), IH2; done|done]. constructor; [done|]. inversion IH1 as [|? ? Hs Hall]; subst. constructor; [lia|]. eapply Forall_impl; [exact Hall|]. intros z Hz. cbn in Hz. lia.
Qed.
Lemma dedup_merge_sort (l : list nat) : StronglySorted lt (dedup_nat (merge_sort le l)) /\ forall j, j ∈ dedup_nat (merge_sort le l) <-> j ∈ l.
Proof.
  destruct (dedup_sorted (merge_sort le l)) as (H1 & H2 & _). { apply (StronglySorted_merge_sort le); intros; lia. }
  split; [done|]. intros j. rewrite H2. by rewrite (merge_sort_Permutation le l).
Qed.
Lemma resolve_Some names n deps ids r : (forall x, x ∈ ids -> x < n) -> (forall d j, names !! d = Some j -> j < n) -> resolve names n deps ids = Some r ->
  StronglySorted lt r /\ forall j, j ∈ r <-> j ∈ ids \/ exists d, d ∈ deps /\ ((d = chars "*" /\ j < n) \/ (d <> chars "*" /\ names !! d = Some j)).
Proof.
  intros Hids Hnames. revert ids Hids. induction deps as [|d deps IH]; intros ids Hids H; cbn [resolve] in H.
  - injection H as <-. destruct (dedup_merge_sort ids) as [H1 H2]. split; [done|]. intros j. rewrite H2. split; [by left|]. intros [?|(d & ?%elem_of_nil & _)]; done.
  - destruct (decide (d = chars "*")) as [->|Hd].
    + apply IH in H as [H1 H2]; [|intros x Hx; apply elem_of_seq in Hx; lia]. split; [done|]. intros j. rewrite H2, elem_of_seq. split.
      * intros [?|(d & Hd & ?)]; right; [exists (chars "*"); split; [left|left; split; [done|lia]]|exists d; split; [by right|done]].
      * intros [Hj|(d & Hd & Hj)]; [left; apply Hids in Hj; lia|]. apply elem_of_cons in Hd as [->|Hd]; [|right; by exists d].
        destruct Hj as [[_ ?]|[? _]]; [left; lia|done].
    + destruct (names !! d) as [id|] eqn:E; [|done]. cbn [mbind option_bind] in H. apply IH in H as [H1 H2].
      2:{ intros x [?|Hx%elem_of_list_singleton]%elem_of_app; [by apply Hids|]. subst x. by apply (Hnames d). }
      split; [done|]. intros j. rewrite H2, elem_of_app, elem_of_list_singleton. split.
      * intros [[?| ->]|(d' & Hd' & ?)]; [by left|right; exists d; split; [left|by right]|right; exists d'; split; [by right|done]].
      * intros [?|(d' & Hd' & Hj)]; [by left; left|]. apply elem_of_cons in Hd' as [->|Hd']; [|right; by exists d'].
        destruct Hj as [[? _]|[_ ?]]; [done|]. left. right. congruence.
Qed.
Lemma resolve_is_Some names n deps ids : is_Some (resolve names n deps ids) <-> forall d, d ∈ deps -> d = chars "*" \/ is_Some (names !! d).
Proof.
  revert ids. induction deps as [|d deps IH]; intros ids; cbn [resolve].
  - split; [intros _ d ?%elem_of_nil; done|by eexists].
  - destruct (decide (d = chars "*")) as [->|Hd].
    + rewrite IH. split; intros H d Hd; [|apply H; by right]. apply elem_of_cons in Hd as [->|Hd]; [by left|by apply H].
    + destruct (names !! d) as [id|] eqn:E; cbn [mbind option_bind].
      * rewrite IH. split; intros H d' Hd'; [|apply H; by right]. apply elem_of_cons in Hd' as [->|Hd']; [right; by rewrite E|by apply H].
      * split; [by intros []|]. intros H. destruct (H d ltac:(left)) as [?|[? ?]]; [done|congruence].
Qed.

(** The assembly of entries that are resolved *)
Section resolve_assembly.
  Context (names : gmap text nat) (n : nat) (deps : gmap nat (list text)).
  Definition resolved (s s' : subtask) : Prop :=
    st_testcases s' = st_testcases s /\ st_owned s' = st_owned s /\ resolve_entry names n deps (ESubtask (st_info s)) = Some (ESubtask (st_info s')).
  Definition same_maps (m m' : gmap nat subtask) : Prop := forall id, option_Forall2 resolved (m !! id) (m' !! id).
  Definition same_assembly (a a' : assembly) : Prop := as_testcases a' = as_testcases a /\ option_Forall2 resolved (as_last a) (as_last a') /\ same_maps (as_subtasks a) (as_subtasks a').
  Lemma resolve_entry_shape e e' : resolve_entry names n deps e = Some e' -> match e with ETestcase _ => e' = e | ESubtask s => exists s', e' = ESubtask s' /\ se_id s' = se_id s end.
  Proof.
    destruct e as [s|t]; cbn [resolve_entry]; [|by intros [= <-]]. destruct (deps !! se_id s) as [ds|]; [|intros [= <-]; by exists s].
    destruct (resolve names n ds (se_deps s)) as [ids|]; [|done]. cbn. intros [= <-]. by eexists.
  Qed.
  Lemma resolved_id s s' : resolved s s' -> se_id (st_info s') = se_id (st_info s).
  Proof. intros (_ & _ & H). apply resolve_entry_shape in H as (e & [= ->] & H). done. Qed.
  Lemma same_flush a a' : same_assembly a a' -> same_maps (flush_last a) (flush_last a').
  Proof.
    intros (_ & Hl & Hm). unfold flush_last. destruct Hl as [s s' Hs|]; [|done]. intros id. rewrite (resolved_id _ _ Hs).
    destruct (decide (id = se_id (st_info s))) as [->|]; [rewrite !lookup_insert; by constructor|rewrite !lookup_insert_ne by done; apply Hm].
  Qed.
  Lemma assemble_resolved l l' a : assemble_run a0 l = Some a -> mapM (resolve_entry names n deps) l = Some l' -> exists a', assemble_run a0 l' = Some a' /\ same_assembly a a'.
  Proof.
    revert l' a. induction l as [|e l IH] using rev_ind; intros l' a Ha Hm.
    - injection Ha as <-. injection Hm as <-. exists a0. split; [done|]. split_and!; [done|constructor|]. intros id. unfold a0. cbn. rewrite !lookup_empty. constructor.
    - apply mapM_Some in Hm. apply Forall2_app_inv_l in Hm as (l1 & l2 & Hl1 & Hl2 & ->). inversion Hl2 as [|? e' ? ? He Hnil]; subst. inversion Hnil; subst.
      rewrite assemble_snoc in Ha. destruct (assemble_run a0 l) as [a1|] eqn:E; [|done]. cbn in Ha.
      destruct (IH l1 a1 eq_refl) as (a1' & Ha1' & Hsame); [by apply mapM_Some|]. rewrite assemble_snoc, Ha1'. cbn.
      pose proof (resolve_entry_shape _ _ He) as Hshape. destruct e as [s|t].
      + destruct Hshape as (s' & -> & Hid). cbn in Ha |- *. injection Ha as <-. eexists. split; [done|]. split_and!; cbn.
        * apply Hsame.
        * constructor. split_and!; done.
        * by apply same_flush.
      + subst e'. cbn in Ha |- *. destruct Hsame as (Ht & Hl & Hs). destruct Hl as [s s' Hss|]; [|done]. cbn in Ha |- *. injection Ha as <-. eexists. split; [done|].
        destruct Hss as (H1 & H2 & H3). split_and!; cbn; [by rewrite Ht|constructor; split_and!; cbn; [by rewrite H1|by rewrite H2|done]|done].
  Qed.
End resolve_assembly.

Section gen_file.
  Context (clean : text -> option text) (get_validator : nat -> validator) (get_output : nat -> output_gen) (generator : text).
  Notation run := (gen_run clean get_validator get_output generator).
  Notation Named := (fun id n before l => exists w, l = LName w /\ in_header before = true /\ id + 1 = subtasks_of before /\ clean w = Some n).
  Notation J := (J clean get_validator get_output generator).
  Notation LineOk := (LineOk clean get_output).
  Lemma J_names_bound ls s a d j : J ls s a -> gs_names s !! d = Some j -> j < gs_subtasks s.
  Proof. intros HJ H. apply (j_names _ _ _ _ _ _ _ HJ) in H as (s' & Hs & _). rewrite (j_st _ _ _ _ _ _ _ HJ). apply (g_ids _ _ _ _ _ _ _ (j_G _ _ _ _ _ _ _ HJ)). by eexists. Qed.
  Lemma J_named ls s a n id : J ls s a -> gs_names s !! n = Some id <-> somewhere (Named id n) ls.
  Proof.
    intros HJ. pose proof (j_G _ _ _ _ _ _ _ HJ) as HG. rewrite (j_names _ _ _ _ _ _ _ HJ). split.
    - intros (s' & Hs' & Hn). by apply (g_name _ _ _ _ _ _ _ HG id s').
    - intros H. assert (is_Some (flush_last a !! id)) as [s' Hs'].
      { apply (g_ids _ _ _ _ _ _ _ HG). destruct H as (b & l & a' & Hb & w & _ & _ & Hid & _). destruct (prefix_subtasks _ _ _ _ Hb). lia. }
      exists s'. split; [done|]. by apply (g_name _ _ _ _ _ _ _ HG id s').
  Qed.
  Lemma gen_task ls s a es : J ls s a -> mapM (resolve_entry (gs_names s) (gs_subtasks s) (gs_deps s)) (gs_entries s) = Some es ->
    exists sts tcs, assemble es = Some (sts, tcs) /\ GenTask clean get_validator get_output generator ls sts tcs.
  Proof.
    intros HJ Hm. destruct (assemble_resolved _ _ _ _ _ _ (j_run _ _ _ _ _ _ _ HJ) Hm) as (a' & Ha' & Hsame).
    exists (flush_last a'), (as_testcases a'). split; [unfold assemble; by rewrite (Ha' : assemble_run (Assembly ∅ ∅ None) es = Some a')|].
    pose proof (same_flush _ _ _ _ _ Hsame) as Hf. destruct Hsame as (Ht & _ & _). pose proof (j_G _ _ _ _ _ _ _ HJ) as HG.
    assert (forall id s', flush_last a' !! id = Some s' -> exists s0, flush_last a !! id = Some s0 /\ resolved (gs_names s) (gs_subtasks s) (gs_deps s) s0 s') as Hback.
    { intros id s' Hs'. specialize (Hf id). rewrite Hs' in Hf. inversion Hf; subst. eauto. }
    assert (forall s0 s', resolved (gs_names s) (gs_subtasks s) (gs_deps s) s0 s' -> se_name (st_info s') = se_name (st_info s0) /\ se_score (st_info s') = se_score (st_info s0) /\
      se_default (st_info s') = se_default (st_info s0) /\ se_validator (st_info s') = se_validator (st_info s0) /\ se_id (st_info s') = se_id (st_info s0)) as Hsame.
    { intros s0 s' (_ & _ & H). cbn [resolve_entry] in H. destruct (gs_deps s !! se_id (st_info s0)) as [ds|]; [|injection H as <-; done].
      destruct (resolve _ _ _ _); [|done]. cbn in H. injection H as <-. done. }
    assert (forall id s0 s', flush_last a !! id = Some s0 -> resolved (gs_names s) (gs_subtasks s) (gs_deps s) s0 s' ->
      StronglySorted lt (se_deps (st_info s')) /\ forall j, j ∈ se_deps (st_info s') <-> exists d, d ∈ default [] (gs_deps s !! id) /\ ((d = chars "*" /\ j < gs_subtasks s) \/ (d <> chars "*" /\ gs_names s !! d = Some j))) as Hdeps.
    { intros id s0 s' Hs0 (_ & _ & H). destruct (g_info _ _ _ _ _ _ _ HG id s0 Hs0) as (Hid & _ & Hd0). cbn [resolve_entry] in H. rewrite Hid, Hd0 in H.
      destruct (gs_deps s !! id) as [ds|].
      - destruct (resolve (gs_names s) (gs_subtasks s) ds []) as [ids|] eqn:Er; [|done]. cbn in H. injection H as <-. cbn [se_deps default from_option Datatypes.id].
        apply resolve_Some in Er as [H1 H2]; [|by intros x ?%elem_of_nil|intros d j; by apply (J_names_bound ls s a)]. split; [done|]. intros j. rewrite H2. split; [|by right]. intros [?%elem_of_nil|?]; done.
      - injection H as <-. cbn. rewrite Hd0. split; [constructor|]. intros j. split; [by intros ?%elem_of_nil|]. intros (d & ?%elem_of_nil & _). done. }
    split.
    - intros id. rewrite <- (g_ids _ _ _ _ _ _ _ HG id). specialize (Hf id). inversion Hf; [split; by eexists|done].
    - intros id s' Hs'. destruct (Hback _ _ Hs') as (s0 & Hs0 & Hr). destruct (Hsame _ _ Hr) as (_ & _ & _ & -> & ->). by destruct (g_info _ _ _ _ _ _ _ HG id s0 Hs0) as (? & ? & _).
    - intros id s' Hs' Hd. destruct (Hback _ _ Hs') as (s0 & Hs0 & Hr). destruct (Hsame _ _ Hr) as (_ & Hsc & Hdf & _). rewrite Hsc. apply HG; [done|]. by rewrite <- Hdf.
    - intros id s' Hs'. destruct (Hback _ _ Hs') as (s0 & Hs0 & Hr). destruct (Hsame _ _ Hr) as (_ & _ & -> & _). by apply HG.
    - intros id s' Hs' Hd. destruct (Hback _ _ Hs') as (s0 & Hs0 & Hr). destruct (Hsame _ _ Hr) as (-> & -> & Hdf & _). rewrite Hdf in Hd. by apply (g_default_score _ _ _ _ _ _ _ HG id).
    - intros id s' k Hs'. destruct (Hback _ _ Hs') as (s0 & Hs0 & Hr). destruct Hr as (_ & -> & _). by apply HG.
    - intros id s' Hs'. destruct (Hback _ _ Hs') as (s0 & Hs0 & Hr). destruct Hr as (-> & -> & _). by apply (g_sorted _ _ _ _ _ _ _ HG id).
    - rewrite Ht. apply HG.
    - intros id s' m Hs'. destruct (Hback _ _ Hs') as (s0 & Hs0 & Hr). destruct (Hsame _ _ Hr) as (-> & _). by apply (g_name _ _ _ _ _ _ _ HG id).
    - intros id s' j Hs'. destruct (Hback _ _ Hs') as (s0 & Hs0 & Hr). destruct (Hdeps _ _ _ Hs0 Hr) as [_ Hd]. rewrite Hd.
      assert (forall d, gs_names s !! d = Some j <-> exists s1, flush_last a' !! j = Some s1 /\ se_name (st_info s1) = Some d) as Hnm.
      { intros d. rewrite (j_names _ _ _ _ _ _ _ HJ). split.
        - intros (s1 & H1 & H2). pose proof (Hf j) as Hfj. rewrite H1 in Hfj. destruct (flush_last a' !! j) as [s2|]; [|inversion Hfj]. assert (resolved (gs_names s) (gs_subtasks s) (gs_deps s) s1 s2) as H3 by (by inversion Hfj). exists s2. split; [done|]. by destruct (Hsame _ _ H3) as (-> & _).
        - intros (s1 & H1 & H2). destruct (Hback _ _ H1) as (s2 & H3 & Hr2). exists s2. split; [done|]. by destruct (Hsame _ _ Hr2) as (<- & _). }
      rewrite (j_st _ _ _ _ _ _ _ HJ). split.
      + intros (d & Hin & Hc). apply (j_deps _ _ _ _ _ _ _ HJ) in Hin. eapply somewhere_impl; [|exact Hin]. intros b l af _ (ds & -> & Hh & Hid & Hdd). exists ds, d. split_and!; [done..|]. by rewrite <- Hnm.
      + intros (b & l & af & Hb & ds & d & -> & Hh & Hid & Hdd & Hc). exists d. split; [|by rewrite Hnm]. apply (j_deps _ _ _ _ _ _ _ HJ). exists b, (LDeps ds), af. split; [done|]. by exists ds.
    - intros id s' Hs'. destruct (Hback _ _ Hs') as (s0 & Hs0 & Hr). by destruct (Hdeps _ _ _ Hs0 Hr) as [? _].
  Qed.
  Lemma gen_ok ls : everywhere LineOk ls /\ everywhere (fun before l => forall ds d, l = LDeps ds -> d ∈ ds -> d = chars "*" \/ exists id, somewhere (named clean id d) ls) ls <-> GenOk clean get_output ls.
  Proof.
    split.
    - intros [Hok Hknown]. destruct (proj1 (run_spec clean get_validator get_output generator ls) Hok) as [s Hs].
      destruct (proj2 (run_spec clean get_validator get_output generator ls) s Hs) as (_ & a & HJ).
      assert (forall id n before l after, ls = before ++ l :: after -> named clean id n before l -> Named id n before l) as Hn.
      { intros id n b l af Hb (w & -> & Hid & Hw). exists w. split_and!; [done| |done..]. specialize (Hok _ _ _ Hb). by destruct Hok as [? _]. }
      split.
      + intros b l af Hb w ->. pose proof (Hok _ _ _ Hb) as H. cbn in H. destruct H as (H1 & n & H2 & H3 & _). split_and!; [done|by eexists|].
        intros (b' & l' & af' & Hb' & m & Hm). apply (H3 m). exists b', l', af'. split; [done|].
        apply (Hn (subtasks_of b - 1) m b' l' (af' ++ LName w :: af)); [|done]. by rewrite Hb, Hb', <- app_assoc.
      + intros id id' n H1 H2. assert (forall id, somewhere (named clean id n) ls -> gs_names s !! n = Some id) as H.
        { intros i Hi. apply (J_named _ _ _ _ _ HJ). eapply somewhere_impl; [|exact Hi]. apply Hn. }
        apply H in H1. apply H in H2. congruence.
      + intros b l af Hb ds ->. exact (Hok _ _ _ Hb).
      + done.
      + intros b l af Hb args ->. exact (Hok _ _ _ Hb).
    - intros HG. split; [|apply HG]. intros b l af Hb. destruct l as [score|w|ds|path| |args|]; cbn; [done| |by eapply (go_deps _ _ _ HG)|done|done|by eapply (go_output _ _ _ HG)|done].
      destruct (go_name _ _ _ HG _ _ _ Hb w eq_refl) as (H1 & [n Hw] & H3). split; [done|]. exists n. split_and!; [done|..].
      + intros m Hm. apply H3. eapply somewhere_impl; [|exact Hm]. intros b' l' af' _ (w' & -> & _ & ? & ?). exists m, w'. done.
      + intros id Hm. assert (id = subtasks_of b - 1) as ->.
        { assert (1 <= subtasks_of b) by (apply subtasks_started; by apply in_header_started). apply (go_unique _ _ _ HG _ _ n).
          - destruct Hm as (b' & l' & af' & Hb' & w' & -> & _ & ? & ?). exists b', (LName w'), (af' ++ LName w :: af). split; [by rewrite Hb, Hb', <- app_assoc|]. by exists w'.
          - exists b, (LName w), af. split; [done|]. exists w. split_and!; [done|lia|done]. }
        apply H3. eapply somewhere_impl; [|exact Hm]. intros b' l' af' _ (w' & -> & _ & ? & ?). exists n, w'. done.
  Qed.
  Lemma gen_accepted ls : is_Some (s ← run gen_init ls; mapM (resolve_entry (gs_names s) (gs_subtasks s) (gs_deps s)) (gs_entries s)) <-> GenOk clean get_output ls.
  Proof.
    rewrite <- gen_ok. destruct (run gen_init ls) as [s|] eqn:Hs.
    2:{ split; [by intros []|]. intros [H _]. apply (run_spec clean get_validator get_output generator) in H as [? H]. congruence. }
    destruct (proj2 (run_spec clean get_validator get_output generator ls) s Hs) as (Hok & a & HJ). cbn [mbind option_bind]. pose proof (j_G _ _ _ _ _ _ _ HJ) as HG.
    assert (forall id d, somewhere (named clean id d) ls <-> gs_names s !! d = Some id) as Hnm.
    { intros id d. rewrite (J_named _ _ _ _ _ HJ). apply somewhere_iff. intros b l af Hb. split; [|intros (w & ? & _ & ?); by exists w].
      intros (w & -> & Hid & Hw). exists w. split_and!; [done| |done..]. specialize (Hok _ _ _ Hb). by destruct Hok as [? _]. }
    transitivity (forall id d, d ∈ default [] (gs_deps s !! id) -> d = chars "*" \/ is_Some (gs_names s !! d)).
    - rewrite mapM_is_Some. rewrite Forall_forall. split.
      + (* a subtask with dependencies is an entry *)
        intros H id d Hd. assert (is_Some (flush_last a !! id)) as [s1 Hs1].
        { apply (j_deps _ _ _ _ _ _ _ HJ) in Hd as (b & l & af & Hb & ds & _ & _ & Hid & _). apply (g_ids _ _ _ _ _ _ _ HG). destruct (prefix_subtasks _ _ _ _ Hb). lia. }
        assert (exists e, ESubtask e ∈ gs_entries s /\ se_id e = id /\ se_deps e = []) as (e & He & Hid & He0).
        { assert (forall l a1, assemble_run a0 l = Some a1 -> forall s1 id, flush_last a1 !! id = Some s1 -> ESubtask (st_info s1) ∈ l) as Hin.
          { clear. induction l as [|e l IH] using rev_ind; intros a1 Ha s1 id Hs1; [injection Ha as <-; cbn in Hs1; by rewrite lookup_empty in Hs1|]. rewrite assemble_snoc in Ha. destruct (assemble_run a0 l) as [a2|]; [|done]. cbn in Ha. apply elem_of_app.
            destruct e as [e|t]; cbn in Ha.
            - injection Ha as <-. unfold flush_last in Hs1 at 1. cbn in Hs1. apply lookup_insert_Some in Hs1 as [[_ <-]|[_ H]]; [right; left|left; by eapply IH].
            - destruct (as_last a2) as [s2|] eqn:El; [|done]. cbn in Ha. injection Ha as <-. unfold flush_last in Hs1 at 1. cbn in Hs1. left. apply lookup_insert_Some in Hs1 as [[_ <-]|[Hne H]].
              + cbn. apply (IH a2 eq_refl s2 (se_id (st_info s2))). unfold flush_last. rewrite El. apply lookup_insert.
              + apply (IH a2 eq_refl s1 id). unfold flush_last. rewrite El. by rewrite lookup_insert_ne. }
          exists (st_info s1). split; [by apply (Hin _ _ (j_run _ _ _ _ _ _ _ HJ) s1 id)|]. by destruct (g_info _ _ _ _ _ _ _ HG id s1 Hs1) as (? & _ & ?). }
        specialize (H _ He). unfold compose in H. cbn [resolve_entry] in H. rewrite Hid in H. destruct (gs_deps s !! id) as [ds|]; [|by apply elem_of_nil in Hd]. cbn in Hd.
        destruct (resolve (gs_names s) (gs_subtasks s) ds (se_deps e)) as [ids|] eqn:Er; [|by destruct H]. eapply resolve_is_Some; [by eexists|exact Hd].
      + intros H e He. unfold compose. destruct e as [e|t]; [|by eexists]. cbn [resolve_entry]. destruct (gs_deps s !! se_id e) as [ds|] eqn:Ed; [|by eexists].
        assert (is_Some (resolve (gs_names s) (gs_subtasks s) ds (se_deps e))) as [ids ->]; [|by eexists]. apply resolve_is_Some. intros d Hd. apply (H (se_id e)). by rewrite Ed.
    - split.
      + intros H. split; [done|]. intros b l af Hb ds d -> Hd. assert (in_header b = true) as Hh by exact (Hok _ _ _ Hb).
        assert (1 <= subtasks_of b) by (apply subtasks_started; by apply in_header_started).
        destruct (H (subtasks_of b - 1) d) as [?|[id Hid]]; [|by left|right; exists id; by apply Hnm].
        apply (j_deps _ _ _ _ _ _ _ HJ). exists b, (LDeps ds), af. split; [done|]. exists ds. split_and!; [done|done|lia|done].
      + intros [_ H] id d Hd. apply (j_deps _ _ _ _ _ _ _ HJ) in Hd as (b & l & af & Hb & ds & -> & _ & _ & Hd). destruct (H _ _ _ Hb ds d eq_refl Hd) as [?|[j Hj]]; [by left|]. right. exists j. by apply Hnm.
  Qed.
End gen_file.
