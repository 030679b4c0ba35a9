(** * ChecksProofs3: writing checks and reading them back *)
From Verif Require Import ChecksSpec ChecksProofs ChecksProofs2.

(** ** [str::lines] *)
Lemma last_cr l : (strip_cr l = l) \/ l = strip_cr l ++ [cr].
Proof.
  unfold strip_cr. destruct (last l) as [c|] eqn:E; [|by left]. case_decide as H; [|by left]. right. subst c. apply last_Some in E as [l' ->]. by rewrite removelast_last.
Qed.
Lemma strip_lines_lookup ls j l' : strip_lines ls !! j = Some l' -> exists l, ls !! j = Some l /\ (l = l' \/ l = l' ++ [cr]).
Proof.
  revert j. induction ls as [|x ls IH]; intros j H; [done|]. destruct ls as [|y ls].
  - cbn [strip_lines] in H. destruct x as [|c x]; [done|]. exists l'. split; [done|by left].
  - change (strip_lines (x :: y :: ls)) with (strip_cr x :: strip_lines (y :: ls)) in H. destruct j as [|j]; [|by apply IH]. injection H as <-. exists x. split; [done|]. destruct (last_cr x) as [->|?]; [by left|by right].
Qed.
Lemma strip_lines_length ls j l : ls !! j = Some l -> l <> [] -> j < length (strip_lines ls).
Proof.
  revert j. induction ls as [|x ls IH]; intros j H Hl; [done|]. destruct ls as [|y ls].
  - destruct j; [|done]. injection H as ->. cbn [strip_lines]. destruct l; [done|]. simpl. lia.
  - change (strip_lines (x :: y :: ls)) with (strip_cr x :: strip_lines (y :: ls)). destruct j as [|j]; [simpl; lia|]. specialize (IH j H Hl). simpl in *. lia.
Qed.
Lemma lines_one_line content : Forall one_line (lines content).
Proof.
  apply Forall_lookup. intros j l' H. apply strip_lines_lookup in H as (l & H & Hl). pose proof (Forall_lookup_1 _ _ _ _ (split_nl_one_line content) H) as Ho. destruct Hl as [->| ->]; [done|]. unfold one_line in *. by apply not_elem_of_app in Ho as [? _].
Qed.
Lemma keep_lookup {A} n R (l : list A) x : x ∈ keep n R l -> exists i, l !! i = Some x /\ R (n + i) = false.
Proof.
  revert n. induction l as [|y l IH]; intros n H; cbn [keep] in H; [by apply elem_of_nil in H|]. destruct (R n) eqn:E.
  - destruct (IH _ H) as (i & ? & ?). exists (S i). split; [done|]. by replace (n + S i) with (S n + i) by lia.
  - apply elem_of_cons in H as [->|H]; [exists 0; by rewrite Nat.add_0_r|]. destruct (IH _ H) as (i & ? & ?). exists (S i). split; [done|]. by replace (n + S i) with (S n + i) by lia.
Qed.

(** ** Writing *)
Definition kept (content : text) (remove : list sol_check) : list text := keep 0 (fun i => bool_decide (i ∈ check_lines remove)) (lines content).
Definition place (content : text) : nat := if starts (chars "#!") content then 1 else 0.
Lemma file_of_app a b : file_of (a ++ b) = file_of a ++ file_of b.
Proof. unfold file_of. by rewrite map_app, concat_app. Qed.
Lemma extract_lines_bound content old bad c : extract content = Some (old, bad) -> c ∈ old -> sc_line c - 1 < length (lines content).
Proof.
  rewrite extract_eq. intros H Hc. apply (extract_from_checks _ _ _ _ _ H) in Hc as (j & -> & line & n & rest & l & Hj & Hr & _). replace (0 + j + 1 - 1) with j by lia. apply (strip_lines_length _ _ line); [done|]. destruct Hr as (b & -> & _). by destruct b.
Qed.
Lemma write_spec content cs remove : Forall (fun c => sc_line c - 1 < length (lines content)) remove -> cs <> [] ->
  write_comments content cs remove =
  if decide (place content <= length (kept content remove)) then
    Some (file_of (take (place content) (kept content remove) ++ cs ++ drop (place content) (kept content remove)))
  else None.
Proof.
  intros Hb Hcs. unfold write_comments. fold (check_lines remove). rewrite remove_each_keep.
  - cbn [mbind option_bind]. fold (place content).
    assert (keep 0 (fun i => bool_decide (i ∈ rev (merge_sort le (remove_dups (check_lines remove))))) (lines content) = kept content remove) as ->.
    { apply keep_ext. intros i _ _. apply bool_decide_ext. rewrite elem_of_list_In, <- in_rev, <- elem_of_list_In. rewrite (merge_sort_Permutation le). apply elem_of_remove_dups. }
    destruct (decide (place content <= length (kept content remove))); [|done]. f_equal. rewrite join_nl_file by (by destruct (take _ _)). rewrite !file_of_app. f_equal.
    rewrite <- (join_nl_file cs) by done. done.
  - apply sorted_rev, NoDup_remove_dups.
  - apply Forall_forall. intros i Hi. rewrite elem_of_list_In, <- in_rev, <- elem_of_list_In in Hi. rewrite (merge_sort_Permutation le) in Hi. rewrite elem_of_remove_dups in Hi. apply elem_of_list_fmap in Hi as (c & -> & Hc). rewrite Forall_forall in Hb. by apply Hb.
Qed.

(** ** A comment *)
Lemma split_ws_snoc w t c : is_ws c = true -> split_ws w (t ++ [c]) = split_ws w t.
Proof.
  intros Hc. revert w. induction t as [|x t IH]; intros w; cbn [app split_ws].
  - rewrite Hc. by destruct w.
  - destruct (is_ws x); [destruct w; by rewrite IH|]. apply IH.
Qed.
Lemma good_name_ws w : good_name w -> w <> [] /\ Forall (fun c => is_ws c = false) w.
Proof. intros [Hw Hf]. split; [done|]. eapply Forall_impl; [exact Hf|]. by intros c [? _]. Qed.
Lemma split_ws_join names : Forall good_name names -> split_ws [] (join [space] names) = names.
Proof.
  induction 1 as [|w names Hw Hns IH]; [done|]. apply good_name_ws in Hw as [Hne Hw]. destruct names as [|w2 names].
  - cbn [join]. rewrite <- (app_nil_r w) at 1. rewrite split_ws_word by done. cbn [app split_ws]. by destruct w.
  - change (join [space] (w :: w2 :: names)) with (w ++ space :: join [space] (w2 :: names)). rewrite split_ws_word by done. cbn [app split_ws]. change (is_ws space) with true. cbv iota. rewrite IH. by destruct w.
Qed.
Lemma join_at names : Forall good_name names -> 64%N ∉ join [space] names.
Proof.
  induction 1 as [|w names Hw Hns IH]; [by apply not_elem_of_nil|]. assert (64%N ∉ w) as Hw2. { intros H. destruct Hw as [_ Hf]. rewrite Forall_forall in Hf. by destruct (Hf _ H). }
  destruct names as [|w2 names]; [done|]. change (join [space] (w :: w2 :: names)) with (w ++ space :: join [space] (w2 :: names)). rewrite elem_of_app, elem_of_cons. intros [?|[?|?]]; done.
Qed.
Lemma join_nl names : Forall good_name names -> nl ∉ join [space] names.
Proof.
  induction 1 as [|w names Hw Hns IH]; [by apply not_elem_of_nil|]. assert (nl ∉ w) as Hw2. { intros H. destruct Hw as [_ Hf]. rewrite Forall_forall in Hf. by destruct (Hf _ H). }
  destruct names as [|w2 names]; [done|]. change (join [space] (w :: w2 :: names)) with (w ++ space :: join [space] (w2 :: names)). rewrite elem_of_app, elem_of_cons. intros [?|[?|?]]; done.
Qed.
Lemma one_at (a b a' b' : text) : a ++ 64%N :: b = a' ++ 64%N :: b' -> 64%N ∉ a -> 64%N ∉ b -> length a' = length a.
Proof.
  revert a'. induction a as [|x a IH]; intros a' H Ha Hb; destruct a' as [|y a']; [done| | |].
  - injection H as _ H. exfalso. apply Hb. rewrite H. apply elem_of_app. right. by left.
  - injection H as -> H. exfalso. apply Ha. by left.
  - injection H as -> H. apply not_elem_of_cons in Ha as [_ Ha]. simpl. f_equal. by apply IH.
Qed.
Lemma as_str_at k : 64%N ∉ chars (as_str k).
Proof. destruct k; apply (bool_decide_unpack (¬ (_ ∈ _))); by vm_compute. Qed.
Lemma as_str_nl k : nl ∉ chars (as_str k).
Proof. destruct k; apply (bool_decide_unpack (¬ (_ ∈ _))); by vm_compute. Qed.
Definition tail_of (k : check_kind) (names : list text) : text := chars "check-" ++ chars (as_str k) ++ chars ": " ++ join [space] names.
Lemma comment_eq p k names : comment p k names = (p ++ [space]) ++ 64%N :: tail_of k names.
Proof. unfold comment, tail_of. rewrite <- app_assoc. done. Qed.
Lemma tail_at k names : Forall good_name names -> 64%N ∉ tail_of k names.
Proof.
  intros H. unfold tail_of. rewrite !elem_of_app. intros [H1|[H1|[H1|H1]]].
  - revert H1. apply (bool_decide_unpack (¬ (_ ∈ _))). by vm_compute.
  - by apply as_str_at in H1.
  - revert H1. apply (bool_decide_unpack (¬ (_ ∈ _))). by vm_compute.
  - by apply join_at in H1.
Qed.
Lemma prefix_at p : good_prefix p -> 64%N ∉ p ++ [space].
Proof. intros [_ H]. rewrite elem_of_app, elem_of_list_singleton. intros [?|?]; done. Qed.
Lemma comment_marks p k names m : good_prefix p -> Forall good_name names -> mark_at (comment p k names) m -> m = length p + 1.
Proof.
  intros Hp Hn (b & r & Hb & <-). rewrite comment_eq in Hb. change (chars "@check-" ++ r) with (64%N :: (chars "check-" ++ r)) in Hb. apply one_at in Hb; [|by apply prefix_at|by apply tail_at]. by rewrite Hb, app_length.
Qed.
Lemma comment_rule p k names : k <> KWallTime -> rule_at (comment p k names) (length p + 1) k (space :: join [space] names).
Proof. intros Hk. exists (p ++ [space]). split; [unfold comment; rewrite <- !app_assoc; done|]. split; [by rewrite app_length|done]. Qed.
Lemma comment_res p k names : good_prefix p -> Forall good_name names -> k <> KWallTime -> line_res (comment p k names) = Some (map (pair k) names, []).
Proof.
  intros Hp Hn Hk. pose proof (comment_rule p k names Hk) as Hr. unfold line_res. destruct (last_check (comment p k names)) as [f|] eqn:L.
  2: { apply last_check_none in L. destruct L. exists (length p + 1). by eapply rule_mark. }
  pose proof (comment_marks _ _ _ _ Hp Hn (last_check_mark _ _ L)) as ->. destruct (first_match_min _ _ _ _ Hr) as (s & nm & rest & F & Hs & He). rewrite F.
  pose proof (first_match_rule _ _ _ _ F) as (k0 & _ & _ & Hr2). pose proof (comment_marks _ _ _ _ Hp Hn (rule_mark _ _ _ _ Hr2)) as ->. rewrite decide_False by lia. destruct (He eq_refl) as [-> ->].
  assert (from_str (chars (as_str k)) = Some k) as -> by (by destruct k). cbn [mbind option_bind]. f_equal. f_equal. f_equal. change (space :: join [space] names) with ([space] ++ join [space] names). rewrite split_ws_space by (by repeat constructor). by apply split_ws_join.
Qed.
Lemma comment_one_line p k names : good_prefix p -> Forall good_name names -> one_line (comment p k names).
Proof.
  intros [Hp _] Hn. unfold one_line, comment. rewrite !elem_of_app. intros [H|[H|[H|[H|H]]]].
  - done.
  - revert H. apply (bool_decide_unpack (¬ (_ ∈ _))). by vm_compute.
  - by apply as_str_nl in H.
  - revert H. apply (bool_decide_unpack (¬ (_ ∈ _))). by vm_compute.
  - by apply join_nl in H.
Qed.

(** ** Quiet lines *)
Definition quiet (line : text) : Prop := exists b, line_res line = Some ([], b).
Lemma mark_app l x n : mark_at l n -> mark_at (l ++ x) n.
Proof. intros (b & r & -> & Hl). exists b, (r ++ x). split; [by rewrite <- !app_assoc|done]. Qed.
Lemma rule_app l x n k r : rule_at l n k r -> rule_at (l ++ x) n k (r ++ x).
Proof. intros (b & -> & Hl & Hk). exists b. split; [by rewrite <- !app_assoc|done]. Qed.
Lemma quiet_cr l : quiet (l ++ [cr]) -> quiet l.
Proof.
  intros (b & Hb). assert (~ two_marks l) as Hn. { intros (n & k & r & m & Hr & Hm & Hlt). assert (two_marks (l ++ [cr])) as H2. { exists n, k, (r ++ [cr]), m. split; [by apply rule_app|]. split; [by apply mark_app|done]. } apply line_res_none in H2. congruence. }
  rewrite <- line_res_none in Hn. destruct (line_res l) as [[c b']|] eqn:E; [|done]. exists b'. rewrite E. destruct c as [|[k p] c]; [done|]. exfalso.
  assert ((k, p) ∈ (k, p) :: c) as Hin by (by left). apply (line_res_checks _ _ _ _ _ E) in Hin as (n & rest & ws & Hr & Hw & Hp).
  assert ((k, p) ∈ ([] : list (check_kind * text))) as Hin; [|by apply elem_of_nil in Hin]. apply (line_res_checks _ _ _ _ _ Hb). exists n, (rest ++ [cr]), ws. split; [by apply rule_app|]. split; [|done].
  apply words_iff in Hw as ->. apply words_iff. by rewrite split_ws_snoc.
Qed.
Lemma extract_from_line i ls c b j l : extract_from i ls = Some (c, b) -> ls !! j = Some l -> is_Some (line_res l).
Proof.
  intros H Hj. destruct (line_res l) as [|] eqn:E; [done|]. exfalso. apply line_res_none in E. assert (Exists two_marks ls) as He by (apply Exists_exists; exists l; split; [by eapply elem_of_list_lookup_2|done]). apply (extract_from_none i) in He. congruence.
Qed.
Lemma kept_quiet content old bad remove : extract content = Some (old, bad) -> (forall c, c ∈ old -> c ∈ remove) -> Forall quiet (kept content remove).
Proof.
  rewrite extract_eq. intros H Hsub. apply Forall_forall. intros l' Hl'. apply keep_lookup in Hl' as (i & Hi & Hn). apply strip_lines_lookup in Hi as (l & Hi & Hl).
  assert (quiet l) as Hq. { destruct (extract_from_line _ _ _ _ _ _ H Hi) as [[c b] E]. exists b. rewrite E. destruct c as [|[k p] c]; [done|]. exfalso. apply bool_decide_eq_false in Hn. apply Hn.
    assert ((k, p) ∈ (k, p) :: c) as Hin by (by left). apply (line_res_checks _ _ _ _ _ E) in Hin as (n & rest & ws & Hr & Hw & Hp). apply elem_of_list_fmap. exists (SolCheck k p (i + 1)). split; [simpl; lia|]. apply Hsub.
    apply (extract_from_checks _ _ _ _ _ H). exists i. split; [done|]. by exists l, n, rest, ws. }
  destruct Hl as [->| ->]; [done|]. by apply quiet_cr.
Qed.
Lemma extract_from_app i a b : extract_from i (a ++ b) =
  ('(c, d) ← extract_from i a; '(c', d') ← extract_from (i + length a) b; Some (c ++ c', d ++ d')).
Proof.
  revert i. induction a as [|x a IH]; intros i; cbn [app extract_from length].
  - cbn [mbind option_bind]. rewrite Nat.add_0_r. by destruct (extract_from i b) as [[? ?]|].
  - destruct (line_res x) as [[c d]|]; [|done]. cbn [mbind option_bind]. rewrite IH. replace (S i + length a) with (i + S (length a)) by lia. destruct (extract_from (S i) a) as [[c1 d1]|]; [|done]. cbn [mbind option_bind].
    destruct (extract_from (i + S (length a)) b) as [[c2 d2]|]; [|done]. cbn [mbind option_bind]. by rewrite <- !app_assoc.
Qed.
Lemma extract_from_quiet i ls : Forall quiet ls -> exists b, extract_from i ls = Some ([], b).
Proof. intros H. revert i. induction H as [|l ls [b Hb] Hls IH]; intros i; cbn [extract_from]; [by eexists|]. rewrite Hb. cbn [mbind option_bind]. destruct (IH (S i)) as [b' ->]. cbn [mbind option_bind]. by eexists. Qed.

(** ** The comments *)
Definition grouped (l : list (check_kind * text)) (ks : list check_kind) : list (check_kind * text) := concat (map (fun k => map (pair k) (names_of k l)) ks).
Lemma names_cons k x l : names_of k (x :: l) = if decide (x.1 = k) then x.2 :: names_of k l else names_of k l.
Proof. unfold names_of. cbn [omap list_omap]. by case_decide. Qed.
Lemma grouped_cons x l ks : NoDup ks -> grouped (x :: l) ks ≡ₚ (if decide (x.1 ∈ ks) then [x] else []) ++ grouped l ks.
Proof.
  induction 1 as [|k ks Hk Hks IH]; [done|]. unfold grouped in *. cbn [map concat]. rewrite names_cons, IH. destruct (decide (x.1 = k)) as [<-|Hne].
  - rewrite decide_False by done. rewrite (decide_True (P := x.1 ∈ x.1 :: ks)) by (by left). cbn [map app]. destruct x as [k p]. done.
  - destruct (decide (x.1 ∈ ks)) as [Hin|Hin].
    + rewrite decide_True by (by right). rewrite !app_assoc. f_equiv. apply Permutation_app_comm.
    + rewrite decide_False; [done|]. rewrite elem_of_cons. tauto.
Qed.
Lemma sorted_all_nodup : NoDup sorted_all.
Proof. apply (bool_decide_unpack _). by vm_compute. Qed.
Lemma sorted_all_all k : k ∈ sorted_all.
Proof. destruct k; apply (bool_decide_unpack _); by vm_compute. Qed.
Lemma grouped_perm l : grouped l sorted_all ≡ₚ l.
Proof.
  induction l as [|x l IH]; [by vm_compute|]. rewrite (grouped_cons x l _ sorted_all_nodup). rewrite decide_True by apply sorted_all_all. by rewrite IH.
Qed.
Lemma names_good l k : Forall (fun x : check_kind * text => good_name x.2) l -> Forall good_name (names_of k l).
Proof. induction 1 as [|x l Hx Hl IH]; [constructor|]. rewrite names_cons. case_decide; [by constructor|done]. Qed.
Definition comment_of (p : text) (l : list (check_kind * text)) (k : check_kind) : option text :=
  match names_of k l with [] => None | names => Some (comment p k names) end.
Lemma names_kind l k : names_of k l <> [] -> exists n, (k, n) ∈ l.
Proof.
  induction l as [|[k' n] l IH]; [done|]. rewrite names_cons. case_decide as H; simpl in H; [subst k'; intros _; exists n; by left|]. intros Hn. destruct (IH Hn) as [m Hm]. exists m. by right.
Qed.
Lemma comments_extract p l ks i : good_prefix p -> Forall (fun x : check_kind * text => good_name x.2 /\ x.1 <> KWallTime) l ->
  exists c, extract_from i (omap (comment_of p l) ks) = Some (c, []) /\ pairs c = grouped l ks.
Proof.
  intros Hp Hl. revert i. induction ks as [|k ks IH]; intros i; [exists []; done|].
  assert (omap (comment_of p l) (k :: ks) = match comment_of p l k with Some x => x :: omap (comment_of p l) ks | None => omap (comment_of p l) ks end) as -> by done.
  change (grouped l (k :: ks)) with (map (pair k) (names_of k l) ++ grouped l ks). unfold comment_of at 1. destruct (names_of k l) as [|n ns] eqn:E; [cbn [map app]; apply IH|]. cbn [extract_from].
  rewrite comment_res; [|done| |].
  - cbn [mbind option_bind]. destruct (IH (S i)) as (c & -> & Hc). cbn [mbind option_bind]. eexists. split; [done|]. unfold pairs in *. rewrite map_app, Hc. f_equal. rewrite map_map. cbn [sc_kind sc_pattern]. rewrite <- (map_id (map (pair k) (n :: ns))) at 2. apply map_ext. by intros [? ?].
  - rewrite <- E. apply names_good. eapply Forall_impl; [exact Hl|]. by intros x [? _].
  - destruct (names_kind l k) as [m Hm]; [by rewrite E|]. rewrite Forall_forall in Hl. by destruct (Hl _ Hm).
Qed.
Lemma comments_one_line p l : good_prefix p -> Forall (fun x : check_kind * text => good_name x.2) l -> Forall one_line (omap (comment_of p l) sorted_all).
Proof.
  intros Hp Hl. apply Forall_forall. intros x Hx. apply elem_of_list_omap in Hx as (k & _ & Hk). unfold comment_of in Hk. destruct (names_of k l) as [|n ns] eqn:E; [done|]. injection Hk as <-. apply comment_one_line; [done|]. rewrite <- E. by apply names_good.
Qed.
Lemma comments_eq p subtasks : comments p subtasks = (l ← chosen subtasks; Some (omap (comment_of p l) sorted_all)).
Proof. done. Qed.
Lemma chosen_spec subtasks : exists l, chosen subtasks = Some l /\ Forall2 (fun s x => choose_check s.2 = Some x.1 /\ x.2 = s.1) subtasks l.
Proof.
  unfold chosen. induction subtasks as [|s subtasks (l & Hl & IH)]; [by exists []|]. destruct (choose_total s.2) as [k Hk]. exists ((k, s.1) :: l). split; [|constructor; done]. cbn [mapM]. rewrite Hk. cbn [mbind option_bind]. rewrite Hl. done.
Qed.
Lemma comments_nil p l : omap (comment_of p l) sorted_all = [] -> l = [].
Proof.
  intros H. destruct l as [|[k n] l]; [done|]. exfalso. assert (comment p k (names_of k ((k, n) :: l)) ∈ omap (comment_of p ((k, n) :: l)) sorted_all) as Hin; [|rewrite H in Hin; by apply elem_of_nil in Hin].
  apply elem_of_list_omap. exists k. split; [apply sorted_all_all|]. unfold comment_of. rewrite names_cons. cbn [fst snd]. by rewrite decide_True.
Qed.

(** ** Reading back *)
Lemma read_back content old bad p l remove new : extract content = Some (old, bad) -> (forall c, c ∈ old -> c ∈ remove) -> (forall c, c ∈ remove -> c ∈ old) -> l <> [] ->
  good_prefix p -> Forall (fun x : check_kind * text => good_name x.2 /\ x.1 <> KWallTime) l ->
  write_comments content (omap (comment_of p l) sorted_all) remove = Some new ->
  exists c b, extract new = Some (c, b) /\ pairs c = grouped l sorted_all.
Proof.
  intros He Hsub Hsub2 Hl Hp Hg Hw.
  assert (Forall one_line (omap (comment_of p l) sorted_all)) as Hco. { apply comments_one_line; [done|]. eapply Forall_impl; [exact Hg|]. by intros x [? _]. }
  pose proof (fun i => comments_extract p l sorted_all i Hp Hg) as Hce. assert (omap (comment_of p l) sorted_all <> []) as Hcn by (by intros ?%comments_nil).
  remember (omap (comment_of p l) sorted_all) as cs eqn:Hcs. clear Hcs. remember (grouped l sorted_all) as G eqn:HG. clear HG.
  rewrite write_spec in Hw; [| |done].
  - case_decide as Hpl; [|done]. injection Hw as <-. set (K := kept content remove) in *. set (n := place content) in *.
    assert (Forall quiet K) as HK by (by eapply kept_quiet).
    assert (Forall one_line K) as HKo. { apply Forall_forall. intros x Hx. apply keep_lookup in Hx as (i & Hi & _). exact (Forall_lookup_1 _ _ _ _ (lines_one_line content) Hi). }
    rewrite extract_eq, split_nl_file.
    + destruct (extract_from_quiet 0 (take n K)) as [b1 E1]; [by apply Forall_take|].
      destruct (Hce (0 + length (take n K))) as (c & E2 & Hc).
      destruct (extract_from_quiet (0 + length (take n K) + length cs) (drop n K)) as [b2 E3]; [by apply Forall_drop|].
      destruct (extract_from_quiet (0 + length (take n K ++ cs ++ drop n K)) [[]]) as [b3 E4]. { constructor; [by exists []|constructor]. }
      rewrite extract_from_app, E4, extract_from_app, E1, extract_from_app, E2, E3. eexists _, _. split; [reflexivity|]. by rewrite !app_nil_r.
    + apply Forall_app. split; [by apply Forall_take|]. apply Forall_app. split; [|by apply Forall_drop]. done.
  - apply Forall_forall. intros c Hc. eapply extract_lines_bound; [exact He|by apply Hsub2].
Qed.
