(** * StoreIndexProps: properties C22-C24 of the index of the store *)
From Verif Require Export StoreIndexProofs.

(** C22. After any sequence of operations the recorded total is the sum of the sizes of the known files, and a file is
    known iff the last thing that happened to it is that it was added. *)
Theorem C22_accounting : forall h ix, history h ix ->
  ix_total ix = known_size ix /\ forall k, is_Some (ix_known ix !! k) <-> present k h.
Proof.
  intros h ix H. cut (accounted ix /\ forall k, is_Some (ix_known ix !! k) <-> present k h); [intros [[? _] ?]; done|].
  induction H as [|h ix now k H [IH1 IH2]|h ix now size k ix' H [IH1 IH2] Hs Ha|h ix target locked ix' gone H [IH1 IH2] Hf].
  - split; [split; [done|intros k it; cbn [ix_known ix_empty]; by rewrite lookup_empty]|]. intros k. cbn [ix_known ix_empty present]. rewrite lookup_empty. by split; [intros []|].
  - split; [by apply touch_accounted|]. intros k'. rewrite <- IH2. unfold ix_touch. destruct (ix_known ix !! k) as [it|] eqn:E; [|done]. simpl.
    destruct (decide (k' = k)) as [->|?]; [rewrite lookup_insert, E; by split; eauto|by rewrite lookup_insert_ne].
  - split; [by eapply add_accounted|]. intros k'. simpl. rewrite <- IH2. unfold ix_add in Ha.
    destruct (ix_known ix !! k) as [it|] eqn:E; injection Ha as <-; simpl;
      (destruct (decide (k' = k)) as [->|Hne]; [rewrite lookup_insert; split; eauto|rewrite lookup_insert_ne by done; tauto]).
  - split; [by eapply flush_accounted|]. intros k. destruct (flush_gone _ _ _ _ _ Hf) as (_&Hg&Hng).
    assert (Hp : present k (map WRemoved gone ++ h) <-> k ∉ gone /\ present k h).
    { clear. induction gone as [|k' g IH]; simpl; [set_solver|]. rewrite IH, not_elem_of_cons. tauto. }
    rewrite Hp, <- IH2. split.
    + intros Hk. assert (Hn : k ∉ gone) by (intros Hin; destruct (Hg k Hin) as (_&_&E); rewrite E in Hk; by destruct Hk).
      rewrite <- (Hng k Hn). done.
    + intros [Hn Hk]. by rewrite (Hng k Hn).
Qed.
Print Assumptions C22_accounting.

Definition two_files : index := Index 20 (<[2%positive := Item 10 2]> (<[1%positive := Item 10 1]> ∅)).
Lemma two_files_history : history [WAdded 2%positive; WAdded 1%positive] two_files.
Proof.
  eapply (h_add _ (Index 10 (<[1%positive := Item 10 1]> ∅)) 2 10 2%positive); [|lia|by vm_compute].
  eapply (h_add _ ix_empty 1 10 1%positive); [apply h_new|lia|by vm_compute].
Qed.
(** Finding: when the directory of the store cannot be resolved during a flush the index forgets all its files but keeps
    counting them. *)
Theorem C22_flush_error_refuted : exists h ix target locked,
  history h ix /\ ix_total (flush_error target locked ix).1 <> known_size (flush_error target locked ix).1.
Proof.
  eexists _, two_files, 5%Z, (fun _ => false). split; [apply two_files_history|]. by vm_compute.
Qed.
Print Assumptions C22_flush_error_refuted.

Lemma last_inv {A} (l : list A) : l = [] \/ exists l' x, l = l' ++ [x].
Proof. induction l as [|x l _] using rev_ind; eauto. Qed.

(** C23. *)
Theorem C23_flush : forall target locked ix ix' gone, accounted ix -> flush target locked ix = (ix', gone) ->
  (* removes only known files, none of which is in use, and keeps the others as they are *)
  (forall k, k ∈ gone -> locked k = false /\ is_Some (ix_known ix !! k) /\ ix_known ix' !! k = None) /\
  (forall k, k ∉ gone -> ix_known ix' !! k = ix_known ix !! k) /\
  (* the target is reached, or what remains is in use *)
  ((known_size ix' <= target)%Z \/ forall k, is_Some (ix_known ix' !! k) -> locked k = true) /\
  (* nothing is removed if not needed, and the removal of the last file was needed *)
  ((known_size ix <= target)%Z -> gone = []) /\
  (forall k gone', gone = k :: gone' -> forall it, ix_known ix !! k = Some it -> (target < known_size ix' + i_size it)%Z).
Proof.
  intros target locked ix ix' gone Ha H. destruct (flush_gone _ _ _ _ _ H) as (Hnd&G1&G2). split; [done|]. split; [done|].
  destruct (flush_accounted _ _ _ _ _ Ha H) as [Ht' _]. destruct Ha as [Ht Hpos]. rewrite <- Ht, <- Ht'.
  destruct (flush_spec _ _ _ _ _ H) as (q1&rest&Hq&Hg&Hm&Ht1&Hstop&Hgo).
  assert (Hnn : forall q2, (forall z, z ∈ q2 -> z ∈ q1) -> (0 <= sum_sizes (unlocked locked q2))%Z).
  { intros q2 Hsub. apply sum_sizes_nonneg. intros z Hz. apply elem_of_list_filter in Hz as [_ Hz].
    apply (Hpos z.1). apply queue_elem. rewrite Hq, elem_of_app. auto. }
  split_and!.
  - destruct Hstop as [->|?]; [|by left]. right. intros k (it&Hk). apply elem_of_map_to_list in Hk. rewrite Hm, app_nil_r in Hk.
    by apply elem_of_list_filter in Hk as [? _].
  - intros Hle. rewrite Hg. destruct (last_inv q1) as [->|(q2&x&E)]; [done|]. specialize (Hgo _ _ E).
    assert (0 <= sum_sizes (unlocked locked q2))%Z; [|lia]. apply Hnn. intros z Hz. rewrite E, elem_of_app. auto.
  - intros k gone' -> it Hit. clear Hm Hstop. revert Hq Hgo Hnn Hg Ht1. revert rest.
    induction q1 as [|x q1 IH] using rev_ind; intros rest Hq Hgo Hnn Hg Ht1; [done|].
    specialize (Hgo q1 x eq_refl) as Hlast. unfold unlocked in Hg, Ht1. rewrite filter_app, filter_cons, filter_nil in Hg, Ht1.
    case_decide as Hl.
    + rewrite fmap_app, rev_app_distr in Hg. simpl in Hg. injection Hg as -> Hg.
      assert (Hx : ix_known ix !! x.1 = Some x.2) by (apply queue_elem; rewrite Hq, !elem_of_app; left; right; left).
      rewrite Hit in Hx. injection Hx as ->. rewrite sum_sizes_app in Ht1. simpl in Ht1. unfold unlocked in Hlast. lia.
    + rewrite app_nil_r in Hg, Ht1. apply (IH (x :: rest)); try done.
      * rewrite Hq, <- app_assoc. done.
      * intros q2 y Hy. assert (Hgo2 := Hgo q1 x eq_refl). 
        assert (Hsum : (sum_sizes (unlocked locked q2) <= sum_sizes (unlocked locked q1))%Z).
        { rewrite Hy. unfold unlocked. rewrite filter_app, sum_sizes_app. pose proof (Hnn [y]) as Hny. unfold unlocked in Hny.
          assert (0 <= sum_sizes (filter (λ x0, locked x0.1 = false) [y]))%Z; [|lia]. apply Hny. intros z Hz. rewrite Hy, !elem_of_app. auto. }
        lia.
      * intros q2 Hsub. apply Hnn. intros z Hz. apply elem_of_app. left. auto.
Qed.
Print Assumptions C23_flush.

(** Three files, the second in use. *)
Definition ex_index : index := Index 60 {[1%positive := Item 10 100; 2%positive := Item 20 200; 3%positive := Item 30 300]}.
Example C23_example : accounted ex_index /\ (flush 25 (fun k => bool_decide (k = 2%positive)) ex_index).2 = [1%positive; 3%positive] /\
  (flush 40 (fun k => bool_decide (k = 2%positive)) ex_index).2 = [3%positive] /\ (flush 60 (fun _ => false) ex_index).2 = [].
Proof.
  split_and!; try (by vm_compute). split; [by vm_compute|]. intros k it Hk. cbn [ix_known ex_index] in Hk.
  rewrite !lookup_insert_Some, lookup_singleton_Some in Hk.
  destruct Hk as [[_ <-]|[_ [[_ <-]|[_ [_ <-]]]]]; simpl; lia.
Qed.

(** C24. Finding: the heap is a max-heap, so a flush removes the most recently used files first. *)
Theorem C24_lru_refuted : exists h ix target ix' gone k1 k2 it1 it2,
  history h ix /\ flush target (fun _ => false) ix = (ix', gone) /\
  ix_known ix !! k1 = Some it1 /\ ix_known ix !! k2 = Some it2 /\ (i_time it1 < i_time it2)%Z /\
  k2 ∈ gone /\ k1 ∉ gone.
Proof.
  eexists _, two_files, 10%Z, _, _, 1%positive, 2%positive, _, _. split; [apply two_files_history|].
  split; [vm_compute; reflexivity|]. split; [vm_compute; reflexivity|]. split; [vm_compute; reflexivity|].
    split; [simpl; lia|]. split; [left|]. intros Hin. apply elem_of_list_singleton in Hin. done.
Qed.
Print Assumptions C24_lru_refuted.

(** What holds is the opposite: if a file is removed then every file not in use that was accessed later is removed. *)
Theorem C24_most_recent_first : forall target locked ix ix' gone k1 k2 it1 it2,
  flush target locked ix = (ix', gone) -> ix_known ix !! k1 = Some it1 -> ix_known ix !! k2 = Some it2 ->
  (i_time it1 < i_time it2)%Z -> locked k2 = false -> k1 ∈ gone -> k2 ∈ gone.
Proof.
  intros target locked ix ix' gone k1 k2 it1 it2 H H1 H2 Hlt Hl Hg.
  destruct (flush_spec _ _ _ _ _ H) as (q1&rest&Hq&->&_).
  rewrite elem_of_list_In, <- in_rev, <- elem_of_list_In, elem_of_list_fmap in Hg. destruct Hg as ([k it]&->&Hx).
  apply elem_of_list_filter in Hx as [_ Hx]. simpl in *.
  assert (Eit : ix_known ix !! k = Some it) by (apply (queue_elem ix (k, it)); rewrite Hq, elem_of_app; auto).
  rewrite H1 in Eit. injection Eit as <-.
  rewrite elem_of_list_In, <- in_rev, <- elem_of_list_In, elem_of_list_fmap. exists (k2, it2). split; [done|].
  apply elem_of_list_filter. split; [done|].
  assert (Hin : (k2, it2) ∈ q1 ++ rest) by (rewrite <- Hq; by apply (queue_elem ix (k2, it2))).
  apply elem_of_app in Hin as [|Hr]; [done|]. exfalso. pose proof (queue_sorted ix) as Hs. rewrite Hq in Hs.
  assert (heap_ge (k, it1) (k2, it2)); [|unfold heap_ge in *; simpl in *; lia].
  clear -Hs Hx Hr. induction q1 as [|y q1 IH]; [by apply not_elem_of_nil in Hx|]. simpl in Hs. inversion Hs as [|? ? Hs' Hf]; subst.
  apply elem_of_cons in Hx as [<-|Hx]; [|by apply IH]. rewrite Forall_forall in Hf. apply Hf. apply elem_of_list_In. apply elem_of_list_In, elem_of_app. auto.
Qed.
Print Assumptions C24_most_recent_first.
