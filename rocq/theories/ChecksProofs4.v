(** * ChecksProofs4: writing the checks again *)
From Verif Require Import ChecksSpec ChecksProofs ChecksProofs2 ChecksProofs3.

Lemma keep_true {A} n R (l : list A) : (forall i, n <= i -> i < n + length l -> R i = true) -> keep n R l = [].
Proof.
  revert n. induction l as [|x l IH]; intros n H; cbn [keep]; [done|]. rewrite H by (simpl; lia). apply IH. intros i H1 H2. apply H; simpl; lia.
Qed.
Lemma strip_cr_id l : cr ∉ l -> strip_cr l = l.
Proof. intros H. destruct (last_cr l) as [->|E]; [done|]. exfalso. apply H. rewrite E. apply elem_of_app. right. by left. Qed.
Lemma strip_lines_map ls : strip_lines (ls ++ [[]]) = map strip_cr ls.
Proof.
  induction ls as [|x ls IH]; [done|]. destruct ls as [|y ls]; [done|]. change (strip_lines ((x :: y :: ls) ++ [[]])) with (strip_cr x :: strip_lines ((y :: ls) ++ [[]])). by rewrite IH.
Qed.
Lemma lines_file ls : Forall one_line ls -> Forall (fun l => cr ∉ l) ls -> lines (file_of ls) = ls.
Proof.
  intros Ho Hc. unfold lines. rewrite split_nl_file by done. rewrite strip_lines_map. clear Ho. induction Hc as [|l ls Hl Hls IH]; [done|]. cbn [map]. by rewrite strip_cr_id, IH.
Qed.
Lemma split_nl_elem t l c : l ∈ split_nl t -> c ∈ l -> c ∈ t.
Proof.
  revert l. induction t as [|x t IH]; intros l Hl Hc; cbn [split_nl] in Hl.
  - apply elem_of_list_singleton in Hl as ->. done.
  - case_decide as H.
    + apply elem_of_cons in Hl as [->|Hl]; [by apply elem_of_nil in Hc|]. right. by eapply IH.
    + destruct (split_nl t) as [|y ls] eqn:E; [by apply split_nl_ne in E|]. apply elem_of_cons in Hl as [->|Hl].
      * apply elem_of_cons in Hc as [->|Hc]; [by left|]. right. eapply IH; [by left|done].
      * right. eapply IH; [by right|done].
Qed.
Lemma lines_no_cr t : cr ∉ t -> Forall (fun l => cr ∉ l) (lines t).
Proof.
  intros H. apply Forall_forall. intros l Hl Hc. apply elem_of_list_lookup in Hl as [j Hj]. apply strip_lines_lookup in Hj as (l0 & Hj & Hl). apply elem_of_list_lookup_2 in Hj. apply H. eapply split_nl_elem; [exact Hj|]. destruct Hl as [->| ->]; [done|]. apply elem_of_app. by left.
Qed.
Lemma comment_no_cr p k names : cr ∉ p -> Forall good_name names -> cr ∉ comment p k names.
Proof.
  intros Hp Hn. unfold comment. rewrite !elem_of_app. intros [H|[H|[H|[H|H]]]].
  - done.
  - revert H. apply (bool_decide_unpack (¬ (_ ∈ _))). by vm_compute.
  - revert H. destruct k; apply (bool_decide_unpack (¬ (_ ∈ _))); by vm_compute.
  - revert H. apply (bool_decide_unpack (¬ (_ ∈ _))). by vm_compute.
  - clear -H Hn. induction Hn as [|w names Hw Hns IH]; [by apply elem_of_nil in H|]. assert (cr ∉ w) as Hw2. { intros Hc. destruct Hw as [_ Hf]. rewrite Forall_forall in Hf. by destruct (Hf _ Hc). }
    destruct names as [|w2 names]; [done|]. change (join [space] (w :: w2 :: names)) with (w ++ space :: join [space] (w2 :: names)) in H. rewrite elem_of_app, elem_of_cons in H. destruct H as [?|[?|?]]; [done|done|]. by apply IH.
Qed.
Lemma starts_two (a b : N) p q : q <> [] -> starts [a; b] (p ++ q) = true -> starts [a; b] p = true \/ (length p < 2 /\ starts [a; b] (p ++ q) = true).
Proof. intros Hq H. destruct p as [|x [|y p]]; [right; split; [simpl; lia|done]|right; split; [simpl; lia|done]|]. left. exact H. Qed.
Lemma comment_not_shebang p k names : starts (chars "#!") p = false -> forall r, starts (chars "#!") (comment p k names ++ r) = false.
Proof.
  intros H r. unfold comment. rewrite <- !app_assoc. destruct p as [|x [|y p]].
  - done.
  - cbn. by rewrite andb_false_r.
  - exact H.
Qed.
Lemma quiet_not_written ls i l k p : ls !! i = Some l -> quiet l -> ~ written ls i k p.
Proof.
  intros Hi (b & Hb) (line & n & rest & ws & Hl & Hr & Hw & Hp). rewrite Hi in Hl. injection Hl as <-. assert ((k, p) ∈ ([] : list (check_kind * text))) as Hin; [|by apply elem_of_nil in Hin]. apply (line_res_checks _ _ _ _ _ Hb). by exists n, rest, ws.
Qed.

Section again.
Context (p : text) (l : list (check_kind * text)).
Context (Hp : good_prefix p) (Hsh : starts (chars "#!") p = false) (Hcr : cr ∉ p) (Hl : l <> []).
Context (Hg : Forall (fun x : check_kind * text => good_name x.2 /\ x.1 <> KWallTime) l).
Let cs := omap (comment_of p l) sorted_all.
Lemma cs_in x : x ∈ cs -> exists k names, names <> [] /\ Forall good_name names /\ k <> KWallTime /\ x = comment p k names.
Proof.
  intros Hx. apply elem_of_list_omap in Hx as (k & _ & Hk). unfold comment_of in Hk. destruct (names_of k l) as [|n ns] eqn:E; [done|]. injection Hk as <-. exists k, (n :: ns). split; [done|]. split.
  - rewrite <- E. apply names_good. eapply Forall_impl; [exact Hg|]. by intros x [? _].
  - split; [|done]. destruct (names_kind l k) as [m Hm]; [by rewrite E|]. rewrite Forall_forall in Hg. by destruct (Hg _ Hm).
Qed.
Lemma cs_written (A B : list text) i : length A <= i -> i < length A + length cs -> exists k n, written (A ++ cs ++ B) i k n.
Proof.
  intros H1 H2. destruct (lookup_lt_is_Some_2 cs (i - length A)) as [x Hx]; [lia|]. destruct (cs_in x) as (k & [|n ns] & Hne & Hns & Hk & ->); [by eapply elem_of_list_lookup_2|done|].
  exists k, n. exists (comment p k (n :: ns)), (length p + 1), (space :: join [space] (n :: ns)), (n :: ns). split.
  - rewrite lookup_app_r by lia. rewrite lookup_app_l by lia. done.
  - split; [by apply comment_rule|]. split; [|by left]. apply words_iff. change (space :: ?x) with ([space] ++ x). rewrite split_ws_space by (by repeat constructor). by rewrite split_ws_join.
Qed.
Lemma write_again A B old bad : Forall quiet A -> Forall quiet B -> Forall one_line A -> Forall one_line B -> Forall (fun l => cr ∉ l) A -> Forall (fun l => cr ∉ l) B ->
  length A = place (file_of (A ++ cs ++ B)) -> extract (file_of (A ++ cs ++ B)) = Some (old, bad) ->
  write_comments (file_of (A ++ cs ++ B)) cs old = Some (file_of (A ++ cs ++ B)).
Proof.
  intros HA HB HoA HoB HcA HcB Hpl He.
  assert (cs <> []) as Hcn by (by intros ?%comments_nil).
  assert (Forall one_line (A ++ cs ++ B)) as Ho. { apply Forall_app. split; [done|]. apply Forall_app. split; [|done]. apply comments_one_line; [done|]. eapply Forall_impl; [exact Hg|]. by intros x [? _]. }
  assert (Forall (fun l => cr ∉ l) (A ++ cs ++ B)) as Hc. { apply Forall_app. split; [done|]. apply Forall_app. split; [|done]. apply Forall_forall. intros x Hx. apply cs_in in Hx as (k & ns & _ & Hns & _ & ->). by apply comment_no_cr. }
  assert (forall i, i < length (A ++ cs ++ B) -> bool_decide (i ∈ check_lines old) = bool_decide (length A <= i < length A + length cs)) as Hi.
  { intros i Hi. apply bool_decide_ext. pose proof He as He2. rewrite extract_eq, split_nl_file in He2 by done.
    assert (forall k n, written (A ++ cs ++ B) i k n -> written ((A ++ cs ++ B) ++ [[]]) i k n) as Hw. { intros k n (line & m & rest & ws & Hl' & ?). exists line, m, rest, ws. split; [by apply lookup_app_l_Some|done]. }
    split.
    - intros Hin. apply elem_of_list_fmap in Hin as (c & -> & Hin). apply (extract_from_checks _ _ _ _ _ He2) in Hin as (j & Hj & Hwr). rewrite Hj in Hi |- *. replace (0 + j + 1 - 1) with j in * by lia.
      assert (~ (length A <= j < length A + length cs) -> False) as Hno; [|by destruct (decide (length A <= j < length A + length cs))]. intros Hno.
      destruct (lookup_lt_is_Some_2 (A ++ cs ++ B) j Hi) as [line Hline]. assert (quiet line) as Hq.
      { destruct (decide (j < length A)) as [HjA|HjA].
        - rewrite lookup_app_l in Hline by done. by eapply Forall_lookup_1 in HA.
        - rewrite lookup_app_r in Hline by lia. rewrite lookup_app_r in Hline by lia. by eapply Forall_lookup_1 in HB. }
      eapply quiet_not_written; [|exact Hq|exact Hwr]. by apply lookup_app_l_Some.
    - intros [H1 H2]. destruct (cs_written A B i H1 H2) as (k & n & Hwr). apply elem_of_list_fmap. exists (SolCheck k n (i + 1)). split; [simpl; lia|]. apply (extract_from_checks _ _ _ _ _ He2). exists i. split; [done|]. by apply Hw. }
  assert (kept (file_of (A ++ cs ++ B)) old = A ++ B) as Hk.
  { unfold kept. rewrite lines_file by done. rewrite (keep_ext 0 _ (fun i => bool_decide (length A <= i < length A + length cs))) by (intros i _ ?; by apply Hi).
    rewrite !keep_app. rewrite (keep_all _ _ A) by (intros i ? ?; apply bool_decide_eq_false_2; lia). rewrite (keep_true _ _ cs) by (intros i ? ?; apply bool_decide_eq_true_2; lia). rewrite (keep_all _ _ B) by (intros i ? ?; apply bool_decide_eq_false_2; lia). done. }
  rewrite write_spec; [|apply Forall_forall; intros c Hc'; by eapply extract_lines_bound|done]. rewrite Hk, <- Hpl. rewrite decide_True by (rewrite app_length; lia). by rewrite take_app, drop_app.
Qed.
End again.
Lemma split_nl_head t : exists l ls, split_nl t = l :: ls /\ (forall q, nl ∉ q -> starts q t = true -> starts q l = true).
Proof.
  induction t as [|c t (l & ls & IH1 & IH2)].
  - exists [], []. split; [done|]. intros q _ H. done.
  - cbn [split_nl]. case_decide as H.
    + exists [], (split_nl t). split; [done|]. intros [|x q] Hq Hs; [done|]. apply starts_spec in Hs as [r Hr]. injection Hr as -> _. apply not_elem_of_cons in Hq as [? _]. congruence.
    + rewrite IH1. exists (c :: l), ls. split; [done|]. intros [|x q] Hq Hs; [done|]. cbn [starts] in *. apply andb_true_iff in Hs as [H1 H2]. apply not_elem_of_cons in Hq as [_ Hq]. rewrite H1. simpl. by apply IH2.
Qed.
Lemma starts_app q a b : starts q a = true -> starts q (a ++ b) = true.
Proof. intros H. apply starts_spec in H as [r ->]. apply starts_spec. exists (r ++ b). by rewrite app_assoc. Qed.
Lemma lines_head content : starts (chars "#!") content = true -> cr ∉ content -> exists l ls, lines content = l :: ls /\ starts (chars "#!") l = true.
Proof.
  intros Hs Hc. destruct (split_nl_head content) as (l & ls & E & H). assert (nl ∉ chars "#!") as Hn by (apply (bool_decide_unpack (¬ (_ ∈ _))); by vm_compute). specialize (H _ Hn Hs). unfold lines. rewrite E.
  assert (cr ∉ l) as Hl. { intros Hin. apply Hc. eapply split_nl_elem; [rewrite E; by left|done]. }
  destruct ls as [|l2 ls].
  - cbn [strip_lines]. destruct l as [|x l]; [done|]. by exists (x :: l), [].
  - change (strip_lines (l :: l2 :: ls)) with (strip_cr l :: strip_lines (l2 :: ls)). exists (strip_cr l), (strip_lines (l2 :: ls)). split; [done|]. by rewrite strip_cr_id.
Qed.
Lemma add_again p subtasks l content old bad new : chosen subtasks = Some l -> good_prefix p -> starts (chars "#!") p = false -> cr ∉ p -> cr ∉ content -> Forall (fun x : check_kind * text => good_name x.2 /\ x.1 <> KWallTime) l ->
  extract content = Some (old, bad) -> (starts (chars "#!") content = true -> 0 ∉ check_lines old) -> add_checks true p subtasks content = Some new -> add_checks true p subtasks new = Some new.
Proof.
  intros Hch Hp Hsh Hcp Hcc Hg He H0 Hadd. unfold add_checks in Hadd |- *. rewrite He in Hadd. cbn [mbind option_bind negb andb] in Hadd. rewrite comments_eq, Hch in Hadd. cbn [mbind option_bind] in Hadd. rewrite comments_eq, Hch. 
  destruct (decide (l = [])) as [->|Hl].
  { change (omap (comment_of p []) sorted_all) with ([] : list text) in *. injection Hadd as <-. rewrite He. done. }
  assert (omap (comment_of p l) sorted_all <> []) as Hcn by (by intros ?%comments_nil).
  assert (write_comments content (omap (comment_of p l) sorted_all) old = Some new) as Hw by (by destruct (omap (comment_of p l) sorted_all)). clear Hadd.
  destruct (read_back content old bad p l old new He ltac:(done) ltac:(done) Hl Hp Hg Hw) as (c & b & Hx & _). rewrite Hx.
  assert (write_comments new (omap (comment_of p l) sorted_all) c = Some new) as Hgoal.
  2: { cbn [mbind option_bind negb andb]. by destruct (omap (comment_of p l) sorted_all). }
  rewrite write_spec in Hw; [|apply Forall_forall; intros x Hxx; by eapply extract_lines_bound|done]. case_decide as Hpl; [|done]. injection Hw as <-. set (K := kept content old) in *. set (n := place content) in *.
  assert (Forall quiet K) as HK by (by eapply kept_quiet).
  assert (Forall one_line K) as HKo. { apply Forall_forall. intros x Hxx. apply keep_lookup in Hxx as (i & Hi & _). exact (Forall_lookup_1 _ _ _ _ (lines_one_line content) Hi). }
  assert (Forall (fun l => cr ∉ l) K) as HKc. { apply Forall_forall. intros x Hxx. apply keep_lookup in Hxx as (i & Hi & _). exact (Forall_lookup_1 _ _ _ _ (lines_no_cr content Hcc) Hi). }
  eapply write_again; eauto using Forall_take, Forall_drop.
  rewrite take_length_le by done. unfold n, place in *. clear n. destruct (starts (chars "#!") content) eqn:Es.
  - destruct (lines_head content Es Hcc) as (l0 & ls & Hls & Hl0). assert (K = l0 :: keep 1 (fun i => bool_decide (i ∈ check_lines old)) ls) as ->. { unfold K, kept. rewrite Hls. cbn [keep]. rewrite bool_decide_eq_false_2 by (by apply H0). done. }
    cbn [take app]. change (file_of (l0 :: ?x)) with ((l0 ++ [nl]) ++ file_of x). rewrite <- app_assoc. by rewrite starts_app.
  - change (take 0 K) with ([] : list text). cbn [app]. destruct (omap (comment_of p l) sorted_all) as [|x cs] eqn:Ecs; [done|]. destruct (cs_in p l Hg x) as (k & ns & _ & _ & _ & ->); [rewrite Ecs; by left|].
    change (file_of ((comment p k ns :: cs) ++ drop 0 K)) with ((comment p k ns ++ [nl]) ++ file_of (cs ++ drop 0 K)). rewrite <- app_assoc. by rewrite comment_not_shebang.
Qed.
