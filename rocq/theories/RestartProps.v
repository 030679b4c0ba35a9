(** * RestartProps: C29, the index and the cache survive a restart *)
From Verif Require Import RestartSpec RestartProofs.
Open Scope N_scope.

Lemma list_ne_nil {A} (a b : list A) : a <> [] -> a ++ b <> [].
Proof. by destruct a. Qed.
Lemma enc_le_ne n x : n <> O -> enc_le n x <> [].
Proof. by destruct n. Qed.

(** Loading what was saved gives it back, whatever the order of the hash map. *)
Theorem C29_index_round_trip ix bs : index_ok ix -> index_file ix bs -> load_index (Some bs) = Some ix.
Proof.
  intros Hok (l & Hl & ->). unfold load_index. rewrite load_file.
  rewrite <- (app_nil_r (enc_index _ _)). by rewrite (dec_enc_index ix l []).
Qed.
Theorem C29_cache_round_trip c bs : cache_ok c -> cache_file c bs ->
  exists c', load_cache (Some bs) = Some c' /\ c' ≡ₚ c /\ same_cache c' c.
Proof.
  intros Hok (l & Hl & ->). unfold load_cache. rewrite load_file. assert (cache_ok l) as Hok' by (by eapply cache_ok_perm).
  rewrite <- (app_nil_r (enc_cache _)). rewrite (rt_cache l []) by done. exists l. split_and!; try done.
  apply clookup_perm; [apply Hok'|done].
Qed.

(** A missing file, or one that starts with something else than the magic (and is not shorter), is empty content. *)
Theorem C29_missing_or_other_version main :
  (main = None \/ exists bs, main = Some bs /\ (24 <= length bs)%nat /\ ~ store_magic `prefix_of` bs) ->
  load_index main = Some ix_empty.
Proof.
  intros [->|(bs & -> & Hl & Hp)]; [done|]. unfold load_index, load.
  destruct (Nat.ltb_spec (length bs) (length store_magic)) as [H|H].
  - change (length store_magic) with 24%nat in H. lia.
  - rewrite decide_False; [done|]. intros E. apply Hp. exists (drop (length store_magic) bs).
    rewrite <- E at 1. by rewrite take_drop.
Qed.
Theorem C29_cache_missing_or_other_version main :
  (main = None \/ exists bs, main = Some bs /\ (24 <= length bs)%nat /\ ~ cache_magic `prefix_of` bs) ->
  load_cache main = Some [].
Proof.
  intros [->|(bs & -> & Hl & Hp)]; [done|]. unfold load_cache, load.
  destruct (Nat.ltb_spec (length bs) (length cache_magic)) as [H|H].
  - change (length cache_magic) with 24%nat in H. lia.
  - rewrite decide_False; [done|]. intros E. apply Hp. exists (drop (length cache_magic) bs).
    rewrite <- E at 1. by rewrite take_drop.
Qed.

(** A truncated file is never loaded as something else: it is always an error. *)
Theorem C29_truncated_index ix bs p : index_ok ix -> index_file ix bs -> p `prefix_of` bs -> p <> bs ->
  load_index (Some p) = None.
Proof.
  intros Hok (l & Hl & ->) [q Hq] Hne. eapply (load_prefix store_magic ix_empty dec_index p q (enc_index (ix_total ix) l) ix).
  - apply ext_index.
  - rewrite <- (app_nil_r (enc_index _ _)). by apply dec_enc_index.
  - unfold enc_index. apply list_ne_nil. unfold enc_u64. by apply enc_le_ne.
  - done.
  - intros ->. apply Hne. by rewrite Hq, app_nil_r.
Qed.
Theorem C29_truncated_cache c bs p : cache_ok c -> cache_file c bs -> p `prefix_of` bs -> p <> bs ->
  load_cache (Some p) = None.
Proof.
  intros Hok (l & Hl & ->) [q Hq] Hne. assert (cache_ok l) as Hok' by (by eapply cache_ok_perm).
  eapply (load_prefix cache_magic [] dec_cache p q (enc_cache l) l).
  - apply ext_cache.
  - rewrite <- (app_nil_r (enc_cache _)). by apply rt_cache.
  - unfold enc_cache, enc_list. apply list_ne_nil. unfold enc_u64. by apply enc_le_ne.
  - done.
  - intros ->. apply Hne. by rewrite Hq, app_nil_r.
Qed.

(** ** Crashes *)
(** Whatever the history of saves, each of them possibly interrupted at any step, the file on disk always holds the
    last content saved completely, provided no flush failed silently. *)
Theorem C29_crash_safe {A} (file : A -> list N -> Prop) (d d' : disk) (a a' : A) bs :
  d_main d = Some bs -> file a bs -> history false file d a d' a' ->
  exists bs', d_main d' = Some bs' /\ file a' bs'.
Proof.
  intros Hm Hf Hh. induction Hh as [|d a d1 d2 a1 b new fin Hh IH Hnew Hs]; [by exists bs|].
  destruct (IH Hm Hf) as (bs1 & Hm1 & Hf1). apply save_run_spec in Hs. destruct fin.
  - destruct Hs as (w & x & Hw & Hx & Hne). rewrite Hne, app_nil_r in Hx by done. subst w. by exists new.
  - exists bs1. by rewrite Hs.
Qed.
(** Hence a restart finds it. *)
Theorem C29_index_crash_safe (d d' : disk) (ix ix' : index) :
  load_index (d_main d) = Some ix ->
  history false (fun ix bs => index_ok ix /\ index_file ix bs) d ix d' ix' ->
  load_index (d_main d') = Some ix'.
Proof.
  intros Hl Hh.
  induction Hh as [|d a d1 d2 a1 b new fin Hh IH Hnew Hs]; [done|].
  specialize (IH Hl). apply save_run_spec in Hs. destruct fin.
  - destruct Hs as (w & x & Hw & Hx & Hne). rewrite Hne, app_nil_r in Hx by done. subst w. rewrite Hw.
    destruct Hnew. by apply C29_index_round_trip.
  - by rewrite Hs.
Qed.
Theorem C29_cache_crash_safe (d d' : disk) (c c' : cache) :
  (exists c1, load_cache (d_main d) = Some c1 /\ same_cache c1 c) ->
  history false (fun c bs => cache_ok c /\ cache_file c bs) d c d' c' ->
  exists c1, load_cache (d_main d') = Some c1 /\ same_cache c1 c'.
Proof.
  intros Hl Hh. induction Hh as [|d a d1 d2 a1 b new fin Hh IH Hnew Hs]; [done|].
  specialize (IH Hl). apply save_run_spec in Hs. destruct fin.
  - destruct Hs as (w & x & Hw & Hx & Hne). rewrite Hne, app_nil_r in Hx by done. subst w. rewrite Hw.
    destruct Hnew as [Hok Hf]. destruct (C29_cache_round_trip b new Hok Hf) as (c1 & ? & _ & ?). by exists c1.
  - by rewrite Hs.
Qed.
(** Also when flushes may fail silently, a restart finds the last content saved, or the load is an error; it never
    finds something else. *)
Theorem C29_lossy_never_wrong (d d' : disk) (ix ix' : index) :
  load_index (d_main d) = Some ix ->
  history true (fun ix bs => index_ok ix /\ index_file ix bs) d ix d' ix' ->
  load_index (d_main d') = Some ix' \/ load_index (d_main d') = None.
Proof.
  intros Hl Hh. induction Hh as [|d a d1 d2 a1 b new fin Hh IH Hnew Hs]; [by left|].
  specialize (IH Hl). apply save_run_spec in Hs. destruct fin.
  - destruct Hs as (w & x & Hw & Hx & _). destruct Hnew as [Hok Hf]. rewrite Hw. destruct (decide (x = [])) as [->|Hne].
    + left. rewrite app_nil_r in Hx. subst w. by apply C29_index_round_trip.
    + right. eapply C29_truncated_index; [done|done| |].
      * exists x. done.
      * intros ->. apply Hne. apply (f_equal length) in Hx. rewrite app_length in Hx. destruct x; [done|]. simpl in Hx. lia.
  - by rewrite Hs.
Qed.

(** ** The dirty flag of the cache *)
(** A cache that is not marked dirty is what was loaded: skipping the save loses nothing. *)
Theorem C29_cache_not_dirty main s : cs_reach main s -> cs_dirty s = false -> load_cache main = Some (cs_entries s).
Proof.
  intros [s1 H|s1 s2 g keys results H Hi] Hd.
  - unfold cs_load in H. destruct (load_cache main); [|done]. by simplify_eq.
  - unfold cs_insert in Hi. destruct (cache_insert g keys results (cs_entries s1)); simpl in Hi; by simplify_eq.
Qed.
(** Hence after a complete session the reloaded cache answers as the one in memory. *)
Theorem C29_cache_session s d d' : cs_reach (d_main d) s -> cache_ok (cs_entries s) -> cs_save false s d d' true ->
  exists c1, load_cache (d_main d') = Some c1 /\ same_cache c1 (cs_entries s).
Proof.
  intros Hr Hok Hs. unfold cs_save in Hs. destruct (cs_dirty s) eqn:E.
  - destruct Hs as (new & Hf & Hrun). apply save_run_spec in Hrun as (w & x & Hw & Hx & Hne).
    rewrite Hne, app_nil_r in Hx by done. subst w. rewrite Hw.
    destruct (C29_cache_round_trip _ new Hok Hf) as (c1 & ? & _ & ?). by exists c1.
  - destruct Hs as [-> _]. exists (cs_entries s). split; [|done]. by apply C29_cache_not_dirty.
Qed.
(** ... and so do its lookups. *)
Theorem C29_same_lookups c1 c2 checked st g keys : same_cache c1 c2 ->
  cache_get checked st g keys c1 = cache_get checked st g keys c2.
Proof. intros H. unfold cache_get. destruct (key_of_group keys g); simpl; [by rewrite H|done..]. Qed.

(** The keys of a cache are always distinct, as [cache_ok] asks: its other parts are only the bounds of the types. *)
Lemma cupdate_keys k es (c : cache) k' : k' ∈ map fst (cupdate k es c) <-> k' = k \/ k' ∈ map fst c.
Proof.
  induction c as [|[q w] c IH]; simpl; [set_solver|]. case_decide; subst; simpl; [set_solver|].
  rewrite !elem_of_cons, IH. tauto.
Qed.
Lemma cupdate_nodup k es (c : cache) : NoDup (map fst c) -> NoDup (map fst (cupdate k es c)).
Proof.
  induction c as [|[q w] c IH]; simpl; intros H; [apply NoDup_singleton|].
  apply NoDup_cons in H as [H1 H2]. case_decide; subst; simpl; apply NoDup_cons; split; auto.
  rewrite cupdate_keys. intros [->|?]; done.
Qed.
Theorem C29_keys_distinct main s : cs_reach main s -> NoDup (map fst (cs_entries s)).
Proof.
  induction 1 as [s H|s s' g keys results _ IH H].
  - unfold cs_load in H. destruct (load_cache main) as [c|] eqn:E; [|done]. simplify_eq. simpl.
    unfold load_cache, load in E. destruct main as [bs|]; [|simplify_eq; constructor].
    assert (forall bs c, fst <$> dec_cache bs = Some c -> NoDup (map fst c)) as Hd.
    { clear. intros bs c H. unfold dec_cache, dbind in H. destruct (dec_list _ bs) as [[l r]|]; [|done].
      simpl in H. simplify_eq. assert (NoDup (map fst (@nil (cache_key * list cache_entry)))) as Hn by constructor.
      revert Hn. generalize (@nil (cache_key * list cache_entry)). induction l as [|[k es] l IH]; simpl; intros m Hm; [done|].
      apply IH. by apply cupdate_nodup. }
    destruct (_ <? _)%nat; [by eapply Hd|]. case_decide; [by eapply Hd|]. simplify_eq. constructor.
  - unfold cs_insert, cache_insert in H. destruct (key_of_group keys g); simpl in H; try done.
    destruct (entry_of_group keys g results); simpl in H; try done. simplify_eq. simpl.
    by apply cupdate_nodup.
Qed.

(** ** Refuted parts *)
Definition ix_demo : index := Index 300 (<[1%positive := Item 100 1500000000123456789]> (<[2%positive := Item 200 1600000000000000001]> ∅)).
Definition ix_demo_file : list N := store_magic ++ enc_index 300 (map_to_list (ix_known ix_demo)).
Lemma ix_demo_ok : index_ok ix_demo.
Proof.
  split_and!; [split; done..|]. intros k i. unfold ix_demo. simpl. 
  intros [[<- <-]|[_ [[<- <-]|[_ H]]%lookup_insert_Some]]%lookup_insert_Some; [..|by rewrite lookup_empty in H];
    split; try done; split; split; simpl; done.
Qed.
Lemma ix_demo_is_file : index_file ix_demo ix_demo_file.
Proof. by exists (map_to_list (ix_known ix_demo)). Qed.
Definition take_save (new : list N) : disk := Disk (Some (take 50 new)) None.

Lemma lossy_run new n m t : save_run true new (Disk m t) (Disk (Some (take n new)) None) true.
Proof.
  exists SRenamed. split; [|done].
  eapply rtc_l; [apply SCreate|].
  eapply (rtc_l _ _ (Disk m (Some []), SWriting ([] ++ new) [])).
  { pose proof (SBuffer true new m [] [] new []) as H. rewrite app_nil_r in H. exact H. }
  eapply (rtc_l _ _ (Disk m (Some ([] ++ take n new)), SDropped)).
  { pose proof (SDropLossy true new m [] (take n new) (drop n new) eq_refl) as H. rewrite take_drop in H. exact H. }
  eapply rtc_l; [apply SRename|]. apply rtc_refl.
Qed.
(** A flush that fails when the writer is dropped is not noticed: the save succeeds, the old index is replaced by a
    truncated one, and the store cannot be opened any more. *)
Theorem C29_lost_flush_refuted :
  exists d d' new ix, d_main d = Some new /\ index_ok ix /\ index_file ix new /\ load_index (d_main d) = Some ix /\
    save_run true new d d' true /\ load_index (d_main d') = None.
Proof.
  exists (Disk (Some ix_demo_file) None), (take_save ix_demo_file), ix_demo_file, ix_demo.
  split_and!; [done|apply ix_demo_ok|apply ix_demo_is_file| | |].
  - apply C29_index_round_trip; [apply ix_demo_ok|apply ix_demo_is_file].
  - apply lossy_run.
  - eapply C29_truncated_index; [apply ix_demo_ok|apply ix_demo_is_file|..].
    + exists (drop 50 ix_demo_file). by rewrite take_drop.
    + by vm_compute.
Qed.
(** A corrupt file (one byte changed) can load as a different content: there is no checksum. *)
Theorem C29_corruption_refuted :
  exists ix bs i b ix', index_ok ix /\ index_file ix bs /\ load_index (Some (<[i := b]> bs)) = Some ix' /\ ix' <> ix.
Proof.
  exists ix_demo, ix_demo_file, 24%nat, 45, (Index 301 (ix_known ix_demo)).
  split_and!; [apply ix_demo_ok|apply ix_demo_is_file| |done].
  assert (<[24%nat := 45]> ix_demo_file = store_magic ++ enc_index 301 (map_to_list (ix_known ix_demo))) as ->
    by (by vm_compute).
  apply C29_index_round_trip; [|by eexists].
  destruct ix_demo_ok as (_ & ? & ?). split_and!; done.
Qed.
(** A file of another version that is shorter than the magic is an error, not empty content. *)
Theorem C29_short_other_version_refuted :
  exists bs, ~ store_magic `prefix_of` bs /\ load_index (Some bs) = None.
Proof.
  exists (str_bytes "task-maker-store v0.5" ). split; [|by vm_compute].
  intros [k Hk]. apply (f_equal length) in Hk. rewrite app_length in Hk. vm_compute in Hk. lia.
Qed.

Example ex_round_trip : load_index (Some ix_demo_file) = Some ix_demo.
Proof. apply C29_index_round_trip; [apply ix_demo_ok|apply ix_demo_is_file]. Qed.
Example ex_truncated : load_index (Some (take 40 ix_demo_file)) = None /\ load_index (Some (take 10 ix_demo_file)) = None.
Proof. by vm_compute. Qed.
(** An interrupted save keeps the old content. *)
Example ex_crash : load_index (d_main (Disk (Some ix_demo_file) (Some (take 30 ix_demo_file)))) = Some ix_demo.
Proof. apply ex_round_trip. Qed.
Definition ce_demo : cache :=
  [([KeyItem (Local "./a.out") ["x"; "è"] (Some 7%positive) [("input.txt", 9%positive, false)] [("LANG", "C")]],
    [[EntryItem (ExecResult (Signal 11 "SIGSEGV") true false (Resources 1 (-2) 3 4) (Some [72; 105]%N) None)
       (Limits (Some 1%Z) None (Some 5%Z) (Some 1024%Z) true (Some 3%Z) None None None false true false ["/etc"])
       2 1024 None (Some 3%positive) [("out", 5%positive)]]])].
Example ex_cache_round_trip : load_cache (Some (cache_magic ++ enc_cache ce_demo)) = Some ce_demo.
Proof. by vm_compute. Qed.

Print Assumptions C29_index_round_trip.
Print Assumptions C29_cache_round_trip.
Print Assumptions C29_missing_or_other_version.
Print Assumptions C29_cache_missing_or_other_version.
Print Assumptions C29_truncated_index.
Print Assumptions C29_truncated_cache.
Print Assumptions C29_crash_safe.
Print Assumptions C29_index_crash_safe.
Print Assumptions C29_cache_crash_safe.
Print Assumptions C29_lossy_never_wrong.
Print Assumptions C29_cache_not_dirty.
Print Assumptions C29_cache_session.
Print Assumptions C29_same_lookups.
Print Assumptions C29_lost_flush_refuted.
Print Assumptions C29_corruption_refuted.
Print Assumptions C29_short_other_version_refuted.
Print Assumptions C29_keys_distinct.
