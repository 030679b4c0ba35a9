(** * TaskProofs: the dependencies *)
From Verif Require Import TaskSpec FormatSpec FormatProofs4.
From stdpp Require Import relations.

Lemma sorted_lt_unique (l l' : list nat) : StronglySorted lt l -> StronglySorted lt l' -> (forall x, x ∈ l <-> x ∈ l') -> l = l'.
Proof.
  intros Hl. revert l'. induction Hl as [|x l Hl IH Hx]; intros l' Hl' H.
  - destruct l' as [|y l']; [done|]. pose proof (proj2 (H y) ltac:(left)) as H1. by apply elem_of_nil in H1.
  - destruct Hl' as [|y l' Hl' Hy]; [pose proof (proj1 (H x) ltac:(left)) as H1; by apply elem_of_nil in H1|]. rewrite Forall_forall in Hx, Hy.
    assert (x = y) as ->. { pose proof (proj1 (H x) ltac:(left)) as H1. pose proof (proj2 (H y) ltac:(left)) as H2. apply elem_of_cons in H1 as [?|H1]; [done|]. apply elem_of_cons in H2 as [?|H2]; [done|]. apply Hy in H1. apply Hx in H2. lia. }
    f_equal. apply IH; [done|]. intros z. split; intros Hz.
    + pose proof (proj1 (H z) ltac:(by right)) as H1. apply elem_of_cons in H1 as [->|?]; [|done]. apply Hx in Hz. lia.
    + pose proof (proj2 (H z) ltac:(by right)) as H1. apply elem_of_cons in H1 as [->|?]; [|done]. apply Hy in Hz. lia.
Qed.
Lemma sorted_lt_NoDup (l : list nat) : StronglySorted lt l -> NoDup l.
Proof. induction 1 as [|x l Hl IH Hx]; constructor; [|done]. intros Hin. rewrite Forall_forall in Hx. apply Hx in Hin. lia. Qed.
(** A sorted list with more elements and the same length *)
Lemma sorted_same_length (l l' : list nat) : StronglySorted lt l -> StronglySorted lt l' -> (forall x, x ∈ l -> x ∈ l') -> length l' <= length l -> l = l'.
Proof.
  intros Hl Hl' Hsub Hlen. apply sorted_lt_unique; [done..|]. intros x. split; [apply Hsub|]. intros Hx.
  assert (l ⊆+ l') as H by (apply NoDup_submseteq; [by apply sorted_lt_NoDup|done]).
  by rewrite (submseteq_Permutation_length_le _ _ Hlen H).
Qed.

Section closure.
  Context (m0 : gmap nat subtask) (Hfresh : just_parsed m0).
  (** What stays true *)
  Definition good (m : gmap nat subtask) : Prop :=
    forall id, match m0 !! id, m !! id with
               | Some s, Some s' => st_info s' = st_info s /\ st_owned s' = st_owned s /\ StronglySorted lt (st_testcases s') /\ (forall k, k ∈ st_owned s -> k ∈ st_testcases s') /\ (forall k, k ∈ st_testcases s' -> belongs m0 id k)
               | None, None => True
               | _, _ => False
               end.
  Definition len (m : gmap nat subtask) (id : nat) : nat := match m !! id with Some s => length (st_testcases s) | None => 0 end.
  Definition keys : list nat := elements (dom m0).
  Definition total (m : gmap nat subtask) : nat := sum_list_with (len m) keys.
  Lemma good_start : good m0.
  Proof.
    intros id. destruct (m0 !! id) as [s|] eqn:Hs; [|done]. destruct (proj2 Hfresh id s Hs) as [H1 H2]. rewrite H2. split_and!; try done. intros k Hk. exists id, s. split_and!; [apply rtc_refl|done..].
  Qed.
  Lemma good_lookup m id s' : good m -> m !! id = Some s' -> exists s, m0 !! id = Some s /\ st_info s' = st_info s /\ st_owned s' = st_owned s /\ StronglySorted lt (st_testcases s') /\
    (forall k, k ∈ st_owned s -> k ∈ st_testcases s') /\ (forall k, k ∈ st_testcases s' -> belongs m0 id k).
  Proof. intros Hg Hs. specialize (Hg id). rewrite Hs in Hg. destruct (m0 !! id) as [s|]; [|done]. by exists s. Qed.
  Lemma good_lookup0 m id s : good m -> m0 !! id = Some s -> exists s', m !! id = Some s'.
  Proof. intros Hg Hs. specialize (Hg id). rewrite Hs in Hg. destruct (m !! id) as [s'|]; [|done]. by exists s'. Qed.
  Lemma sum_update m id s' s (l : list nat) : m !! id = Some s -> length (st_testcases s) <= length (st_testcases s') ->
    sum_list_with (len m) l <= sum_list_with (len (<[id := s']> m)) l /\ (id ∈ l -> length (st_testcases s) < length (st_testcases s') -> sum_list_with (len m) l < sum_list_with (len (<[id := s']> m)) l).
  Proof.
    intros Hs Hle. assert (forall j, len m j <= len (<[id := s']> m) j) as Hj.
    { intros j. unfold len. destruct (decide (j = id)) as [->|]; [by rewrite lookup_insert, Hs|by rewrite lookup_insert_ne]. }
    induction l as [|j l [IH1 IH2]]; cbn [sum_list_with]; [split; [done|by intros ?%elem_of_nil]|]. pose proof (Hj j) as Hjj. split; [lia|].
    intros Hin Hlt. apply elem_of_cons in Hin as [<-|Hin]; [|specialize (IH2 Hin Hlt); lia].
    assert (len m id < len (<[id := s']> m) id); [|lia]. unfold len. by rewrite lookup_insert, Hs.
  Qed.
  Lemma extend_one_good m id dep : good m -> depends m0 id dep -> exists m' u, extend_one id m dep = Some (m', u) /\ good m' /\ total m <= total m' /\
    (u = true -> total m < total m') /\ (u = false -> m' = m /\ forall s s', m !! id = Some s -> m !! dep = Some s' -> forall k, k ∈ st_testcases s' -> k ∈ st_testcases s).
  Proof.
    intros Hg Hdep. pose proof (proj1 Hfresh id dep Hdep) as [d0 Hd0]. destruct (good_lookup0 m dep d0 Hg Hd0) as [d Hd].
    pose proof Hdep as Hdep'. destruct Hdep' as (s0 & Hs0 & Hin). destruct (good_lookup0 m id s0 Hg Hs0) as [s Hs].
    unfold extend_one. rewrite Hd. cbn [mbind option_bind]. rewrite Hs. cbn [mbind option_bind].
    destruct (dedup_merge_sort (st_testcases s ++ st_testcases d)) as [Hsort Helem]. set (l := dedup_nat (merge_sort le (st_testcases s ++ st_testcases d))) in *.
    destruct (good_lookup _ _ _ Hg Hs) as (s0' & Hs0' & Hi & Ho & Hss & Hown & Hbel). rewrite Hs0 in Hs0'. injection Hs0' as <-.
    destruct (good_lookup _ _ _ Hg Hd) as (d0' & Hd0' & _ & _ & Hds & _ & Hdbel). 
    assert (forall k, k ∈ st_testcases s -> k ∈ l) as Hsub. { intros k Hk. apply Helem, elem_of_app. by left. }
    assert (length (st_testcases s) <= length l) as Hlen. { apply submseteq_length, NoDup_submseteq; [by apply sorted_lt_NoDup|done]. }
    assert (good (<[id := set_testcases l s]> m)) as Hg'.
    { intros j. destruct (decide (j = id)) as [->|Hj]; [|rewrite lookup_insert_ne by done; apply Hg]. rewrite lookup_insert, Hs0. cbn. split_and!; [done..| |].
      - intros k Hk. by apply Hsub, Hown.
      - intros k Hk. apply Helem, elem_of_app in Hk as [Hk|Hk]; [by apply Hbel|]. apply Hdbel in Hk as (j & sj & Hr & Hsj & Hk). exists j, sj. split_and!; [|done..]. by eapply rtc_l. }
    assert (id ∈ keys) as Hkeys. { unfold keys. apply elem_of_elements, elem_of_dom. by eexists. }
    destruct (sum_update m id (set_testcases l s) s keys Hs Hlen) as [Hsum1 Hsum2]. cbn [st_testcases set_testcases] in Hsum2.
    eexists _, _. split; [done|]. split_and!; [done|done|..].
    - intros Hu%negb_true_iff. apply Nat.eqb_neq in Hu. apply Hsum2; [done|lia].
    - intros Hu%negb_false_iff. apply Nat.eqb_eq in Hu.
      assert (st_testcases s = l) as Heq. { apply sorted_same_length; [done..|lia]. }
      split.
      + apply insert_id. rewrite Hs. f_equal. rewrite <- Heq. by destruct s.
      + intros s1 d1 Hs1 Hd1 k Hk. injection Hs1 as <-. injection Hd1 as <-. rewrite Heq. apply Helem, elem_of_app. by right.
  Qed.
  Lemma extend_deps_good id deps : (forall d, d ∈ deps -> depends m0 id d) -> forall m u, good m -> exists m' u', extend_deps id m deps u = Some (m', u') /\ good m' /\ total m <= total m' /\
    (u' = true -> u = true \/ total m < total m') /\
    (u' = false -> u = false /\ m' = m /\ forall dep, dep ∈ deps -> forall s s', m !! id = Some s -> m !! dep = Some s' -> forall k, k ∈ st_testcases s' -> k ∈ st_testcases s).
  Proof.
    induction deps as [|d deps IH]; intros Hdeps m u Hg; cbn [extend_deps].
    - exists m, u. split_and!; [done|done|done|by left|]. intros ->. split_and!; [done..|]. by intros d ?%elem_of_nil.
    - destruct (extend_one_good m id d Hg) as (m1 & u1 & H1 & Hg1 & Ht1 & Hu1 & Hf1); [apply Hdeps; left|]. rewrite H1. cbn [mbind option_bind].
      destruct (IH ltac:(intros d' ?; apply Hdeps; by right) m1 (u || u1) Hg1) as (m2 & u2 & H2 & Hg2 & Ht2 & Hu2 & Hf2). exists m2, u2. split_and!; [done|done|lia|..].
      + intros Hu. destruct (Hu2 Hu) as [Hor|?]; [|right; lia]. apply orb_true_iff in Hor as [->|Hor]; [by left|]. apply Hu1 in Hor. right. lia.
      + intros Hu. destruct (Hf2 Hu) as (Hor & -> & Hcl). apply orb_false_iff in Hor as [-> Hor]. destruct (Hf1 Hor) as [-> Hcl1]. split_and!; [done..|].
        intros dep Hin. apply elem_of_cons in Hin as [->|Hin]; [done|by apply Hcl].
  Qed.
  Lemma closure_pass_good ks : (forall id, id ∈ ks -> is_Some (m0 !! id)) -> forall m u, good m -> exists m' u', closure_pass ks m u = Some (m', u') /\ good m' /\ total m <= total m' /\
    (u' = true -> u = true \/ total m < total m') /\
    (u' = false -> u = false /\ m' = m /\ forall id, id ∈ ks -> forall dep, depends m0 id dep -> forall s s', m !! id = Some s -> m !! dep = Some s' -> forall k, k ∈ st_testcases s' -> k ∈ st_testcases s).
  Proof.
    induction ks as [|id ks IH]; intros Hks m u Hg; cbn [closure_pass].
    - exists m, u. split_and!; [done|done|done|by left|]. intros ->. split_and!; [done..|]. by intros d ?%elem_of_nil.
    - destruct (Hks id ltac:(left)) as [s0 Hs0]. destruct (good_lookup0 m id s0 Hg Hs0) as [s Hs]. rewrite Hs. cbn [mbind option_bind].
      destruct (good_lookup _ _ _ Hg Hs) as (s0' & Hs0' & Hi & _). rewrite Hs0 in Hs0'. injection Hs0' as <-. rewrite Hi.
      destruct (extend_deps_good id (se_deps (st_info s0))) with (m := m) (u := u) as (m1 & u1 & H1 & Hg1 & Ht1 & Hu1 & Hf1); [intros d Hd; by exists s0|done|]. rewrite H1. cbn [mbind option_bind].
      destruct (IH ltac:(intros d' ?; apply Hks; by right) m1 u1 Hg1) as (m2 & u2 & H2 & Hg2 & Ht2 & Hu2 & Hf2). exists m2, u2. split_and!; [done|done|lia|..].
      + intros Hu. destruct (Hu2 Hu) as [Hor|?]; [|right; lia]. apply Hu1 in Hor as [?|?]; [by left|right; lia].
      + intros Hu. destruct (Hf2 Hu) as (Hor & -> & Hcl). destruct (Hf1 Hor) as (-> & -> & Hcl1). split_and!; [done..|].
        intros j Hin dep Hdep. apply elem_of_cons in Hin as [->|Hin]; [|by apply Hcl]. apply Hcl1. destruct Hdep as (s1 & Hs1 & Hd). rewrite Hs0 in Hs1. by injection Hs1 as <-.
  Qed.
  (** The bound *)
  Definition universe : list nat := flat_map (fun id => match m0 !! id with Some s => st_owned s | None => [] end) keys.
  Lemma belongs_universe id k : belongs m0 id k -> k ∈ universe.
  Proof.
    intros (j & s & _ & Hs & Hk). unfold universe. apply elem_of_list_In, in_flat_map. exists j. split; [apply elem_of_list_In; unfold keys; apply elem_of_elements, elem_of_dom; by eexists|]. rewrite Hs. by apply elem_of_list_In.
  Qed.
  Lemma total_bound m : good m -> total m <= length keys * length universe.
  Proof.
    intros Hg. unfold total. assert (forall l, sum_list_with (len m) l <= length l * length universe) as H; [|apply H]. induction l as [|id l IH]; [done|]. cbn [sum_list_with length]. 
    assert (len m id <= length universe); [|lia]. unfold len. destruct (m !! id) as [s|] eqn:Hs; [|lia]. destruct (good_lookup _ _ _ Hg Hs) as (s0 & _ & _ & _ & Hso & _ & Hb).
    apply submseteq_length, NoDup_submseteq; [by apply sorted_lt_NoDup|]. intros k Hk. by apply (belongs_universe id), Hb.
  Qed.
  Lemma good_closed m : good m -> (forall id, is_Some (m0 !! id) -> forall dep, depends m0 id dep -> forall s s', m !! id = Some s -> m !! dep = Some s' -> forall k, k ∈ st_testcases s' -> k ∈ st_testcases s) -> closed m0 m.
  Proof.
    intros Hg Hcl id. pose proof (Hg id) as Hid. destruct (m0 !! id) as [s|] eqn:Hs; destruct (m !! id) as [s'|] eqn:Hs'; try done. destruct Hid as (Hi & Ho & Hso & Hown & Hbel). split_and!; [done..|].
    intros k. split; [apply Hbel|]. intros (j & sj & Hr & Hsj & Hk). revert s s' Hs Hs' Hi Ho Hso Hown Hbel. induction Hr as [id|id j' j Hd Hr IH]; intros s s' Hs Hs' Hi Ho Hso Hown Hbel.
    - apply Hown. congruence.
    - destruct (proj1 Hfresh _ _ Hd) as [s1 Hs1]. destruct (good_lookup0 m j' s1 Hg Hs1) as [s1' Hs1'].
      eapply (Hcl id); [by eexists|exact Hd|done|exact Hs1'|]. destruct (good_lookup _ _ _ Hg Hs1') as (s2 & Hs2 & ? & ? & ? & ? & ?). rewrite Hs1 in Hs2. injection Hs2 as <-. by eapply (IH Hsj s1 s1').
  Qed.
  Lemma closure_good order : visits_all m0 order -> forall fuel pass m, good m -> length keys * length universe - total m < fuel -> exists m', closure order fuel pass m = Some m' /\ closed m0 m'.
  Proof.
    intros Hord. induction fuel as [|fuel IH]; intros pass m Hg Hfuel; [lia|]. cbn [closure].
    destruct (closure_pass_good (order pass)) with (m := m) (u := false) as (m1 & u1 & H1 & Hg1 & Ht1 & Hu1 & Hf1); [intros id; apply Hord|done|]. rewrite H1. cbn [mbind option_bind].
    destruct u1.
    - apply IH; [done|]. destruct (Hu1 eq_refl) as [?|?]; [done|]. pose proof (total_bound m1 Hg1). lia.
    - exists m1. split; [done|]. destruct (Hf1 eq_refl) as (_ & -> & Hcl). apply good_closed; [done|]. intros id Hid. apply Hcl. by apply Hord.
  Qed.
  (** Any result is the right one *)
  Lemma closure_result order : visits_all m0 order -> forall fuel pass m m', good m -> closure order fuel pass m = Some m' -> closed m0 m'.
  Proof.
    intros Hord. induction fuel as [|fuel IH]; intros pass m m' Hg H; [done|]. cbn [closure] in H.
    destruct (closure_pass_good (order pass)) with (m := m) (u := false) as (m1 & u1 & H1 & Hg1 & Ht1 & Hu1 & Hf1); [intros id; apply Hord|done|]. rewrite H1 in H. cbn [mbind option_bind] in H.
    destruct u1; [by eapply IH|]. injection H as <-. destruct (Hf1 eq_refl) as (_ & -> & Hcl). apply good_closed; [done|]. intros id Hid. apply Hcl. by apply Hord.
  Qed.
End closure.
Lemma closed_unique m m1 m2 : closed m m1 -> closed m m2 -> m1 = m2.
Proof.
  intros H1 H2. apply map_eq. intros id. specialize (H1 id). specialize (H2 id). destruct (m !! id) as [s|]; destruct (m1 !! id) as [s1|]; destruct (m2 !! id) as [s2|]; try done.
  destruct H1 as (Hi1 & Ho1 & Hs1 & Hk1), H2 as (Hi2 & Ho2 & Hs2 & Hk2). f_equal. assert (st_testcases s1 = st_testcases s2) as Ht. { apply sorted_lt_unique; [done..|]. intros k. by rewrite Hk1, Hk2. }
  destruct s1, s2. cbn in *. subst. done.
Qed.
