(** * StoreIndexProofs: lemmas about the index of the store *)
From Verif Require Export StoreIndexSpec.

Lemma sum_sizes_app l k : sum_sizes (l ++ k) = (sum_sizes l + sum_sizes k)%Z.
Proof. induction l as [|x l IH]; simpl; [done|]. rewrite IH. lia. Qed.
Lemma sum_sizes_perm l k : l ≡ₚ k -> sum_sizes l = sum_sizes k.
Proof. induction 1; simpl; lia. Qed.
Lemma sum_sizes_nonneg l : (forall x, x ∈ l -> (0 <= i_size x.2)%Z) -> (0 <= sum_sizes l)%Z.
Proof.
  induction l as [|x l IH]; simpl; [done|]. intros H. assert (0 <= i_size x.2)%Z by (apply H; left).
  assert (0 <= sum_sizes l)%Z by (apply IH; intros; apply H; by right). lia.
Qed.
Lemma sum_insert (m : gmap store_key item) k it : m !! k = None -> sum_sizes (map_to_list (<[k := it]> m)) = (i_size it + sum_sizes (map_to_list m))%Z.
Proof. intros H. by rewrite (sum_sizes_perm _ _ (map_to_list_insert m k it H)). Qed.
Lemma sum_update (m : gmap store_key item) k it it' : m !! k = Some it -> i_size it' = i_size it ->
  sum_sizes (map_to_list (<[k := it']> m)) = sum_sizes (map_to_list m).
Proof.
  intros H Hs. rewrite <- (insert_delete m k it H) at 2. rewrite <- insert_delete_insert.
  rewrite !sum_insert by apply lookup_delete. lia.
Qed.

Definition unlocked (locked : store_key -> bool) (l : list (store_key * item)) := filter (fun x => locked x.1 = false) l.
Definition locked_of (locked : store_key -> bool) (l : list (store_key * item)) := filter (fun x => locked x.1 = true) l.
Lemma unlocked_cons locked x l : unlocked locked (x :: l) = if locked x.1 then unlocked locked l else x :: unlocked locked l.
Proof. unfold unlocked. rewrite filter_cons. destruct (locked x.1); [by rewrite decide_False|by rewrite decide_True]. Qed.
Lemma locked_of_cons locked x l : locked_of locked (x :: l) = if locked x.1 then x :: locked_of locked l else locked_of locked l.
Proof. unfold locked_of. rewrite filter_cons. destruct (locked x.1); [by rewrite decide_True|by rewrite decide_False]. Qed.

Lemma flush_loop_spec target locked fl q fl' rest : flush_loop target locked fl q = (fl', rest) ->
  exists q1, q = q1 ++ rest /\ fl_surviving fl' = fl_surviving fl ++ locked_of locked q1 /\
    fl_gone fl' = rev (unlocked locked q1).*1 ++ fl_gone fl /\
    fl_total fl' = (fl_total fl - sum_sizes (unlocked locked q1))%Z /\
    (rest = [] \/ (fl_total fl' <= target)%Z) /\
    (forall q2 x, q1 = q2 ++ [x] -> (target < fl_total fl - sum_sizes (unlocked locked q2))%Z).
Proof.
  revert fl. induction q as [|x q IH]; intros fl; simpl.
  - intros [= <- <-]. exists []. simpl. rewrite app_nil_r. split_and!; try done; [lia|by left|]. intros [] y; done.
  - unfold flush_go. case_bool_decide as Hgo.
    + intros H. destruct (IH _ H) as (q1&->&H1&H2&H3&H4&H5). exists (x :: q1). rewrite unlocked_cons, locked_of_cons.
      unfold flush_one in *. split; [done|]. assert (Hlast : forall q2 y, x :: q1 = q2 ++ [y] -> (target < fl_total fl - sum_sizes (unlocked locked q2))%Z).
      { intros [|z q2] y; simpl; [intros _; lia|]. intros [= -> ->]. specialize (H5 q2 y eq_refl). rewrite unlocked_cons.
        destruct (locked z.1); simpl in *; [done|]. lia. }
      destruct (locked x.1); simpl in *.
      * rewrite H1, <- app_assoc. done.
      * rewrite H2, <- app_assoc. split_and!; try done. lia.
    + intros [= <- <-]. exists []. simpl. rewrite app_nil_r. split_and!; try done; [lia|right; lia|]. intros [] y; done.
Qed.

Global Instance heap_ge_trans : Transitive heap_ge.
Proof. intros a b c. unfold heap_ge. lia. Qed.
Global Instance heap_ge_total : Total heap_ge.
Proof. intros a b. unfold heap_ge. lia. Qed.
Lemma queue_perm ix : flush_queue ix ≡ₚ map_to_list (ix_known ix).
Proof. apply merge_sort_Permutation. Qed.
Lemma queue_elem ix x : x ∈ flush_queue ix <-> ix_known ix !! x.1 = Some x.2.
Proof. rewrite (queue_perm ix). destruct x. by rewrite elem_of_map_to_list. Qed.
Lemma queue_nodup ix : NoDup (flush_queue ix).*1.
Proof. rewrite (queue_perm ix). apply NoDup_fst_map_to_list. Qed.
Lemma queue_sorted ix : StronglySorted heap_ge (flush_queue ix).
Proof. apply Sorted_StronglySorted; [apply _|]. apply Sorted_merge_sort, _. Qed.

Lemma partition_perm locked l : locked_of locked l ++ unlocked locked l ≡ₚ l.
Proof.
  induction l as [|x l IH]; [done|]. rewrite unlocked_cons, locked_of_cons. destruct (locked x.1); simpl.
  - by rewrite IH.
  - by rewrite <- Permutation_middle, IH.
Qed.

Lemma NoDup_fst_filter {A B} (P : A * B -> Prop) `{!forall x, Decision (P x)} (l : list (A * B)) : NoDup l.*1 -> NoDup (filter P l).*1.
Proof.
  induction l as [|x l IH]; [done|]. rewrite fmap_cons, NoDup_cons. intros [Hn Hd]. rewrite filter_cons. case_decide; [|by apply IH].
  rewrite fmap_cons, NoDup_cons. split; [|by apply IH]. intros Hin. apply Hn. apply elem_of_list_fmap in Hin as (y&->&Hy).
  apply elem_of_list_fmap_1. by apply elem_of_list_filter in Hy as [_ ?].
Qed.

(** The whole of [flush]. *)
Lemma flush_spec target locked ix ix' gone : flush target locked ix = (ix', gone) ->
  exists q1 rest, flush_queue ix = q1 ++ rest /\ gone = rev (unlocked locked q1).*1 /\
    map_to_list (ix_known ix') ≡ₚ locked_of locked q1 ++ rest /\
    ix_total ix' = (ix_total ix - sum_sizes (unlocked locked q1))%Z /\
    (rest = [] \/ (ix_total ix' <= target)%Z) /\
    (forall q2 x, q1 = q2 ++ [x] -> (target < ix_total ix - sum_sizes (unlocked locked q2))%Z).
Proof.
  unfold flush. destruct (flush_loop _ _ _ _) as [fl rest] eqn:E. intros [= <- <-].
  destruct (flush_loop_spec _ _ _ _ _ _ E) as (q1&Hq&H1&H2&H3&H4&H5). simpl in *. exists q1, rest. split; [done|].
  split; [by rewrite H2, app_nil_r|]. split_and!; try done.
  unfold flush_end. simpl. rewrite H1. apply map_to_list_to_map.
  pose proof (queue_nodup ix) as Hn. rewrite Hq in Hn. rewrite fmap_app in *. apply NoDup_app in Hn as (N1&N2&N3). apply NoDup_app. split_and!; try done.
  - by apply NoDup_fst_filter.
  - intros k Hk. apply N2. apply elem_of_list_fmap in Hk as (x&->&Hx). apply elem_of_list_fmap_1. by apply elem_of_list_filter in Hx as [_ ?].
Qed.
Lemma queue_sum ix : accounted ix -> ix_total ix = sum_sizes (flush_queue ix).
Proof. intros [H _]. rewrite H. unfold known_size. symmetry. apply sum_sizes_perm, queue_perm. Qed.
Lemma flush_accounted target locked ix ix' gone : accounted ix -> flush target locked ix = (ix', gone) -> accounted ix'.
Proof.
  intros Ha H. pose proof (queue_sum _ Ha) as Hs. destruct Ha as [_ Hpos]. destruct (flush_spec _ _ _ _ _ H) as (q1&rest&Hq&_&Hm&Ht&_).
  split.
  - unfold known_size. rewrite (sum_sizes_perm _ _ Hm), Ht, Hs, Hq, !sum_sizes_app.
    rewrite <- (sum_sizes_perm _ _ (partition_perm locked q1)), sum_sizes_app. lia.
  - intros k it Hk. apply elem_of_map_to_list in Hk. rewrite Hm in Hk. apply (Hpos k). apply (queue_elem ix (k, it)). rewrite Hq.
    apply elem_of_app in Hk as [Hk|Hk]; apply elem_of_app; [left|by right]. by apply elem_of_list_filter in Hk as [_ ?].
Qed.
Lemma add_accounted now size k ix ix' : (0 <= size)%Z -> accounted ix -> ix_add now (Some size) k ix = Some ix' -> accounted ix'.
Proof.
  intros Hs [Ht Hp]. unfold ix_add. destruct (ix_known ix !! k) as [it|] eqn:E; intros [= <-]; split; unfold known_size in *; simpl.
  - by rewrite (sum_update _ _ it).
  - intros k' it'. destruct (decide (k' = k)) as [->|?]; [rewrite lookup_insert; intros [= <-]; simpl; by eapply Hp|rewrite lookup_insert_ne by done; apply Hp].
  - rewrite sum_insert by done. simpl. lia.
  - intros k' it'. destruct (decide (k' = k)) as [->|?]; [rewrite lookup_insert; intros [= <-]; done|rewrite lookup_insert_ne by done; apply Hp].
Qed.
Lemma touch_accounted now k ix : accounted ix -> accounted (ix_touch now k ix).
Proof.
  intros [Ht Hp]. unfold ix_touch. destruct (ix_known ix !! k) as [it|] eqn:E; [|done]. split; unfold known_size in *; simpl.
  - by rewrite (sum_update _ _ it).
  - intros k' it'. destruct (decide (k' = k)) as [->|?]; [rewrite lookup_insert; intros [= <-]; simpl; by eapply Hp|rewrite lookup_insert_ne by done; apply Hp].
Qed.

(** Which files a flush removes. *)
Lemma flush_gone target locked ix ix' gone : flush target locked ix = (ix', gone) ->
  NoDup gone /\
  (forall k, k ∈ gone -> locked k = false /\ is_Some (ix_known ix !! k) /\ ix_known ix' !! k = None) /\
  (forall k, k ∉ gone -> ix_known ix' !! k = ix_known ix !! k).
Proof.
  intros H. destruct (flush_spec _ _ _ _ _ H) as (q1&rest&Hq&->&Hm&_).
  pose proof (queue_nodup ix) as Hn. rewrite Hq, fmap_app in Hn. apply NoDup_app in Hn as (N1&N2&N3).
  assert (Hg : forall k, k ∈ rev (unlocked locked q1).*1 <-> exists it, (k, it) ∈ q1 /\ locked k = false).
  { intros k. rewrite elem_of_list_In, <- in_rev, <- elem_of_list_In, elem_of_list_fmap. split.
    - intros ([k' it]&->&Hx). apply elem_of_list_filter in Hx as [? ?]. simpl in *. eauto.
    - intros (it&Hx&Hl). exists (k, it). split; [done|]. apply elem_of_list_filter. done. }
  assert (Hk' : forall k it, ix_known ix' !! k = Some it <-> ((k, it) ∈ q1 /\ locked k = true) \/ (k, it) ∈ rest).
  { intros k it. rewrite <- elem_of_map_to_list, Hm, elem_of_app. unfold locked_of. rewrite elem_of_list_filter. simpl. tauto. }
  assert (Hk : forall k it, ix_known ix !! k = Some it <-> (k, it) ∈ q1 \/ (k, it) ∈ rest).
  { intros k it. rewrite <- (queue_elem ix (k, it)), Hq, elem_of_app. done. }
  split_and!.
  - assert (Hp : rev (unlocked locked q1).*1 ≡ₚ (unlocked locked q1).*1) by (symmetry; apply Permutation_rev). rewrite Hp. by apply NoDup_fst_filter.
  - intros k Hk0. apply Hg in Hk0 as (it&Hin&Hl). split; [done|]. split; [exists it; apply Hk; by left|].
    apply eq_None_not_Some. intros (it'&Hit'). apply Hk' in Hit' as [[_ ?]|Hr]; [congruence|].
    apply (N2 k); [by apply (elem_of_list_fmap_1 fst _ (k, it))|by apply (elem_of_list_fmap_1 fst _ (k, it'))].
  - intros k Hng. apply option_eq. intros it. rewrite Hk, Hk'. split; [tauto|]. intros [Hin|Hin]; [|by right].
    destruct (locked k) eqn:E; [by left|]. exfalso. apply Hng, Hg. eauto.
Qed.
