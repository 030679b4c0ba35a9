(** * ChecksProofs *)
From Verif Require Import ChecksSpec.

(** ** Outcomes *)
Lemma outcome_lt_worse a b : outcome_lt a b = true <-> worse a b.
Proof.
  unfold worse, zero_points. destruct a, b; vm_compute; split; intros; try done; try (left; split; [split|]; try done; intros [? ?]; done); try (right; split; done); try tauto.
  all: intuition congruence.
Qed.
Lemma contains_named k o : contains (minimals k) o = true <-> named k o.
Proof.
  unfold contains. rewrite bool_decide_eq_true. destruct k; simpl; rewrite ?elem_of_list_singleton; try done. unfold zero_points. rewrite !elem_of_cons, elem_of_nil.
  destruct o; intuition congruence.
Qed.
Lemma not_worse l o : existsb (fun o' => outcome_lt o' o) l = false <-> forall o', o' ∈ l -> ~ worse o' o.
Proof.
  rewrite <- not_true_iff_false, existsb_exists. split.
  - intros H o' Hin Hw. apply H. exists o'. split; [by apply elem_of_list_In|by apply outcome_lt_worse].
  - intros H (o' & Hin & Hw). apply (H o'); [by apply elem_of_list_In|by apply outcome_lt_worse].
Qed.
Lemma check_loop_true k all l : check_loop k all l = true <-> exists o, o ∈ l /\ (forall o', o' ∈ all -> ~ worse o' o) /\ named k o.
Proof.
  induction l as [|o l IH]; simpl; [split; [done|]; intros (o & H & _); by apply elem_of_nil in H|].
  destruct (existsb (fun o' => outcome_lt o' o) all) eqn:E.
  - rewrite IH. split; intros (o' & Hin & H); exists o'; (split; [|done]); [by right|]. apply elem_of_cons in Hin as [->|Hin]; [|done]. destruct H as [H _]. apply (proj2 (not_worse _ _)) in H. congruence.
  - pose proof (proj1 (not_worse _ _) E) as E'. destruct (contains (minimals k) o) eqn:C.
    + split; [|done]. intros _. exists o. split; [by left|]. split; [done|]. by apply contains_named.
    + rewrite IH. split; intros (o' & Hin & H); exists o'; (split; [|done]); [by right|]. apply elem_of_cons in Hin as [->|Hin]; [|done]. destruct H as [_ H]. apply contains_named in H. congruence.
Qed.
Lemma check_true k l : check k l = true <-> (exists o, minimal o l /\ named k o) \/ (l = [] /\ k = KAccepted).
Proof.
  unfold check. destruct (check_loop k l l) eqn:E.
  - split; [|done]. intros _. left. apply check_loop_true in E as (o & Hin & Hm & Hn). by exists o.
  - assert (~ exists o, minimal o l /\ named k o) as Hno.
    { intros (o & [Hin Hm] & Hn). apply not_true_iff_false in E. apply E. apply check_loop_true. by exists o. }
    destruct (bool_decide (l = []) && contains (minimals k) OAccepted) eqn:B.
    + split; [|done]. intros _. right. apply andb_true_iff in B as [B1 B2]. apply bool_decide_eq_true in B1. split; [done|]. apply contains_named in B2. destruct k; try done. by destruct B2.
    + split; [done|]. intros [H|[-> ->]]; [done|]. by vm_compute in B.
Qed.
Lemma not_worse_bottom o o' : zero_points o -> ~ worse o' o.
Proof. unfold worse, zero_points. intros [H1 H2] [[H3 H4]|[-> ->]]; [apply H4; done|done]. Qed.
Lemma zero_dec (o : outcome) : Decision (zero_points o).
Proof. unfold zero_points. apply _. Defined.
Lemma has_minimal l : l <> [] -> exists o, minimal o l.
Proof.
  intros Hl. destruct (decide (Exists zero_points l)) as [H|H].
  - apply Exists_exists in H as (o & Hin & Hz). exists o. split; [done|]. intros o' _. by apply not_worse_bottom.
  - destruct (decide (OPartial ∈ l)) as [Hp|Hp].
    + exists OPartial. split; [done|]. intros o' Hin [[Hz _]|[_ ?]]; [|done]. apply H. apply Exists_exists. by exists o'.
    + destruct l as [|o l]; [done|]. exists o. split; [by left|]. intros o' Hin [[Hz _]|[-> _]]; [|done]. apply H. apply Exists_exists. by exists o'.
Qed.
Lemma all_named k l : (forall o, minimal o l -> named k o) -> check k l = true \/ l = [].
Proof. intros H. destruct (decide (l = [])) as [?|Hl]; [by right|]. left. apply check_true. left. destruct (has_minimal l Hl) as [o Ho]. eauto. Qed.

(** ** The chosen check *)
Lemma dedup_elem l o : o ∈ dedup l <-> o ∈ l.
Proof.
  induction l as [|x l IH]; simpl; [done|]. destruct (dedup l) as [|y l'].
  - rewrite elem_of_list_singleton, elem_of_cons. rewrite <- IH, elem_of_nil. tauto.
  - case_decide as H; [subst y|]; rewrite ?elem_of_cons; rewrite ?elem_of_cons in IH; tauto.
Qed.
Lemma sorted_elem l o : o ∈ dedup (merge_sort index_le l) <-> o ∈ l.
Proof. rewrite dedup_elem. by rewrite (merge_sort_Permutation index_le l). Qed.
Definition results (l : list outcome) : list outcome := dedup (merge_sort index_le l).
Definition minimal_results (l : list outcome) : list outcome := List.filter (fun r => forallb (fun r2 => negb (outcome_lt r2 r)) (results l)) (results l).
Lemma minimal_results_elem l o : o ∈ minimal_results l <-> minimal o l.
Proof.
  unfold minimal_results. rewrite elem_of_list_In, filter_In, <- elem_of_list_In. unfold results. rewrite sorted_elem, forallb_forall. unfold minimal. f_equiv. split.
  - intros H o' Hin Hw. apply outcome_lt_worse in Hw. specialize (H o'). rewrite Hw in H. rewrite <- elem_of_list_In, sorted_elem in H. by specialize (H Hin).
  - intros H o' Hin. rewrite <- elem_of_list_In, sorted_elem in Hin. destruct (outcome_lt o' o) eqn:E; [|done]. apply outcome_lt_worse in E. by destruct (H o' Hin).
Qed.
Lemma choose_find l : choose_check l = List.find (fun k => forallb (contains (minimals k)) (minimal_results l)) sorted_all.
Proof. done. Qed.
Lemma covers k l : forallb (contains (minimals k)) (minimal_results l) = true <-> forall o, minimal o l -> named k o.
Proof.
  rewrite forallb_forall. split; intros H o Ho.
  - apply contains_named, H. apply elem_of_list_In. by apply minimal_results_elem.
  - apply contains_named, H. apply minimal_results_elem. by apply elem_of_list_In.
Qed.
Lemma find_first {A} (f : A -> bool) l x : List.find f l = Some x -> exists l1 l2, l = l1 ++ x :: l2 /\ f x = true /\ Forall (fun y => f y = false) l1.
Proof.
  induction l as [|y l IH]; simpl; [done|]. destruct (f y) eqn:E; intros H.
  - injection H as ->. exists [], l. split; [done|]. split; [done|]. constructor.
  - destruct (IH H) as (l1 & l2 & -> & H1 & H2). exists (y :: l1), l2. split; [done|]. split; [done|]. by constructor.
Qed.
Lemma choose_total l : is_Some (choose_check l).
Proof.
  rewrite choose_find. destruct (find _ sorted_all) as [k|] eqn:E; [by eexists|]. exfalso.
  assert (forall k, k ∈ sorted_all -> ~ (forall o, minimal o l -> named k o)) as Hn.
  { intros k Hk H. apply covers in H. apply elem_of_list_In in Hk. pose proof (find_none _ _ E _ Hk) as F. simpl in F. congruence. }
  destruct (decide (Exists zero_points l)) as [H|H].
  - apply (Hn KZero); [by repeat constructor|]. intros o [Hin Hm]. simpl. apply Exists_exists in H as (z & Hz & Hzz). destruct (zero_dec o) as [?|Hno]; [done|]. destruct (Hm z Hz). left. done.
  - destruct (decide (OPartial ∈ l)) as [Hp|Hp].
    + apply (Hn KPartialScore); [by repeat constructor|]. intros o [Hin Hm]. simpl. destruct (decide (o = OPartial)) as [?|Hne]; [done|]. exfalso.
      destruct (decide (o = OAccepted)) as [->|Hna]; [apply (Hm OPartial Hp); by right|]. apply H. apply Exists_exists. by exists o.
    + apply (Hn KAccepted); [by repeat constructor|]. intros o [Hin Hm]. simpl. destruct (decide (o = OAccepted)) as [?|Hne]; [done|]. exfalso.
      apply H. apply Exists_exists. exists o. split; [done|]. split; [done|]. by intros ->.
Qed.
Lemma choose_spec l k : choose_check l = Some k ->
  (forall o, minimal o l -> named k o) /\ exists l1 l2, sorted_all = l1 ++ k :: l2 /\ Forall (fun k' => exists o, minimal o l /\ ~ named k' o) l1.
Proof.
  rewrite choose_find. intros H. apply find_first in H as (l1 & l2 & Hl & Hk & Hf). split; [by apply covers|]. exists l1, l2. split; [done|].
  eapply Forall_impl; [exact Hf|]. intros k' Hk'. simpl in Hk'. apply not_true_iff_false in Hk'. rewrite forallb_forall in Hk'.
  destruct (forallb (contains (minimals k')) (minimal_results l)) eqn:E; [destruct Hk'; by rewrite forallb_forall in E|]. clear Hk'.
  assert (exists o, o ∈ minimal_results l /\ contains (minimals k') o = false) as (o & Ho & Hc).
  { revert E. generalize (minimal_results l). intros L. induction L as [|x L IH]; simpl; [done|]. destruct (contains (minimals k') x) eqn:C; simpl; intros E; [|exists x; split; [by left|done]].
    destruct (IH E) as (o & ? & ?). exists o. split; [by right|done]. }
  exists o. split; [by apply minimal_results_elem|]. intros Hn. apply contains_named in Hn. congruence.
Qed.

(** ** Lines *)
Lemma split_nl_ne t : split_nl t <> [].
Proof. destruct t as [|c t]; simpl; [done|]. case_decide; [done|]. by destruct (split_nl t). Qed.
Lemma split_nl_one_line t : Forall one_line (split_nl t).
Proof.
  induction t as [|c t IH]; simpl; [repeat constructor; by apply not_elem_of_nil|]. case_decide as H; [constructor; [by apply not_elem_of_nil|done]|].
  destruct (split_nl t) as [|l ls]; [constructor; [by apply not_elem_of_cons; split; [|apply not_elem_of_nil]|constructor]|]. apply Forall_cons in IH as [Hl Hls]. constructor; [|done]. unfold one_line. apply not_elem_of_cons. done.
Qed.
Lemma split_nl_app l t : one_line l -> split_nl (l ++ nl :: t) = l :: split_nl t.
Proof.
  induction l as [|c l IH]; intros H; simpl.
  - done.
  - apply not_elem_of_cons in H as [Hc Hl]. rewrite decide_False by done. by rewrite IH.
Qed.
Lemma split_nl_line l : one_line l -> split_nl l = [l].
Proof. induction l as [|c l IH]; intros H; simpl; [done|]. apply not_elem_of_cons in H as [Hc Hl]. rewrite decide_False by done. by rewrite IH. Qed.
Lemma split_nl_file ls : Forall one_line ls -> split_nl (file_of ls) = ls ++ [[]].
Proof.
  induction 1 as [|l ls Hl Hls IH]; [done|]. unfold file_of in *. simpl. rewrite <- app_assoc. simpl. by rewrite split_nl_app, IH.
Qed.
Lemma join_nl_file ls : ls <> [] -> join [nl] ls ++ [nl] = file_of ls.
Proof.
  induction ls as [|l ls IH]; [done|]. intros _. destruct ls as [|l2 ls]; [unfold file_of; simpl; by rewrite app_nil_r|].
  change (join [nl] (l :: l2 :: ls)) with (l ++ [nl] ++ join [nl] (l2 :: ls)). rewrite <- !app_assoc, IH by done. change (file_of (l :: l2 :: ls)) with ((l ++ [nl]) ++ file_of (l2 :: ls)). by rewrite <- app_assoc.
Qed.

(** ** The mark *)
Lemma starts_spec p t : starts p t = true <-> exists r, t = p ++ r.
Proof.
  revert t. induction p as [|a p IH]; intros t; simpl; [split; [by exists t|done]|]. destruct t as [|b t]; [split; [done|]; by intros [r ?]|].
  rewrite andb_true_iff, bool_decide_eq_true, IH. split.
  - intros [-> [r ->]]. by exists r.
  - intros [r H]. simpl in H. injection H as -> ->. split; [done|by exists r].
Qed.
Lemma last_check_at t : 64%N ∉ t -> last_check t = None.
Proof.
  induction t as [|c t IH]; intros H; cbn [last_check]; [done|]. apply not_elem_of_cons in H as [Hc Ht]. rewrite IH by done. destruct (starts at_check (c :: t)) eqn:E; [|done].
  apply starts_spec in E as [r E]. change (at_check ++ r) with (64%N :: (tl at_check ++ r)) in E. injection E as E1 _. congruence.
Qed.
Lemma last_check_app a t n : last_check t = Some n -> last_check (a ++ t) = Some (length a + n).
Proof. intros H. induction a as [|c a IH]; [done|]. change ((c :: a) ++ t) with (c :: (a ++ t)). cbn [last_check]. by rewrite IH. Qed.
Lemma last_check_some t n : last_check t = Some n -> exists b r, t = b ++ at_check ++ r /\ length b = n.
Proof.
  revert n. induction t as [|c t IH]; intros n H; cbn [last_check] in H; [done|]. destruct (last_check t) as [m|] eqn:E.
  - injection H as <-. destruct (IH m eq_refl) as (b & r & -> & <-). by exists (c :: b), r.
  - destruct (starts at_check (c :: t)) eqn:S; [|done]. injection H as <-. apply starts_spec in S as [r ->]. by exists [], r.
Qed.
Lemma last_check_none_app a r : last_check (a ++ at_check ++ r) <> None.
Proof.
  induction a as [|c a IH].
  - assert (starts at_check (at_check ++ r) = true) as Hs by (apply starts_spec; by exists r). change ([] ++ at_check ++ r) with (at_check ++ r).
    destruct (at_check ++ r) as [|c l]; [done|]. cbn [last_check]. destruct (last_check l); [done|]. by rewrite Hs.
  - change ((c :: a) ++ at_check ++ r) with (c :: (a ++ at_check ++ r)). cbn [last_check]. destruct (last_check (a ++ _)); done.
Qed.
Lemma match_here_cons n names t : match_here (n :: names) t =
  (if starts (at_check ++ chars n ++ chars ":") t then Some (chars n, drop (length (at_check ++ chars n ++ chars ":")) t) else match_here names t).
Proof. done. Qed.
Lemma match_here_spec names t name rest : match_here names t = Some (name, rest) -> exists n, n ∈ names /\ name = chars n /\ t = at_check ++ chars n ++ chars ":" ++ rest.
Proof.
  induction names as [|n names IH]; [done|]. rewrite match_here_cons. remember (at_check ++ chars n ++ chars ":") as p eqn:Hp. destruct (starts p t) eqn:E.
  - intros H. injection H as <- <-. exists n. split; [by left|]. split; [done|]. apply starts_spec in E as [r ->]. rewrite drop_app. rewrite Hp. by rewrite <- !app_assoc.
  - intros H. destruct (IH H) as (m & ? & ?). exists m. split; [by right|done].
Qed.
Lemma first_match_spec t s name rest : first_match t = Some (s, name, rest) -> exists b n, n ∈ regex_names /\ name = chars n /\ length b = s /\ t = b ++ at_check ++ chars n ++ chars ":" ++ rest.
Proof.
  revert s. induction t as [|c t IH]; intros s H; cbn [first_match] in H; [done|]. destruct (match_here regex_names (c :: t)) as [[nm r]|] eqn:E.
  - injection H as <- <- <-. apply match_here_spec in E as (n & Hn & -> & ->). by exists [], n.
  - destruct (first_match t) as [[[s' nm] r]|]; [|done]. injection H as <- <- <-. destruct (IH s' eq_refl) as (b & n & Hn & -> & <- & ->). by exists (c :: b), n.
Qed.
Lemma first_le_last t s name rest n : first_match t = Some (s, name, rest) -> last_check t = Some n -> s <= n.
Proof.
  revert s n. induction t as [|c t IH]; intros s n H Hl; cbn [first_match last_check] in *; [done|]. destruct (match_here regex_names (c :: t)) as [[nm r]|] eqn:E; [injection H as <- <- <-; lia|].
  destruct (first_match t) as [[[s' nm] r]|] eqn:F; [|done]. injection H as <- <- <-.
  destruct (last_check t) as [m|] eqn:L; [injection Hl as <-; specialize (IH s' m eq_refl eq_refl); lia|]. exfalso.
  apply first_match_spec in F as (b & q & _ & _ & _ & ->). by apply last_check_none_app in L.
Qed.
Lemma regex_from_str n : n ∈ regex_names -> exists k, from_str (chars n) = Some k /\ n = as_str k.
Proof.
  unfold regex_names. intros H. repeat (apply elem_of_cons in H as [->|H]; [eexists; split; [vm_compute; reflexivity|done]|]). by apply elem_of_nil in H.
Qed.
