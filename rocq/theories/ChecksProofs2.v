(** * ChecksProofs2: the checks of a file, and the files with new checks *)
From Verif Require Import ChecksSpec ChecksProofs.

(** ** Words *)
Lemma split_ws_space s t : Forall (fun c => is_ws c = true) s -> split_ws [] (s ++ t) = split_ws [] t.
Proof. induction 1 as [|c s Hc Hs IH]; [done|]. cbn [app split_ws]. by rewrite Hc. Qed.
Lemma split_ws_word u w t : Forall (fun c => is_ws c = false) w -> split_ws u (w ++ t) = split_ws (u ++ w) t.
Proof. intros H. revert u. induction H as [|c w Hc Hw IH]; intros u; [by rewrite app_nil_r|]. cbn [app split_ws]. rewrite Hc, IH. by rewrite <- app_assoc. Qed.
Lemma words_split t l : words t l -> l = split_ws [] t.
Proof.
  induction 1 as [t H|s w Hs Hne Hw|s w c t l Hs Hne Hw Hc Ht IH].
  - rewrite <- (app_nil_r t). by rewrite split_ws_space.
  - rewrite split_ws_space by done. rewrite <- (app_nil_r w) at 2. rewrite split_ws_word by done. cbn [app split_ws]. by destruct w.
  - rewrite split_ws_space by done. rewrite split_ws_word by done. cbn [app split_ws]. rewrite Hc. destruct w; [done|]. by rewrite IH.
Qed.
Lemma split_words_gen t : words t (split_ws [] t) /\ forall w, w <> [] -> Forall (fun c => is_ws c = false) w -> words (w ++ t) (split_ws w t).
Proof.
  induction t as [|c t [IH1 IH2]].
  - split; [constructor; constructor|]. intros w Hne Hw. cbn [split_ws]. destruct w; [done|]. rewrite app_nil_r. apply (words_last []); done.
  - split.
    + cbn [split_ws]. destruct (is_ws c) eqn:E.
      * remember (split_ws [] t) as l. clear Heql IH2. destruct IH1 as [t H|s w Hs Hne Hw|s w c' t l Hs Hne Hw Hc Ht].
        -- constructor. by constructor.
        -- apply (words_last (c :: s)); [by constructor|done|done].
        -- apply (words_more (c :: s)); [by constructor|done..].
      * apply (IH2 ([] ++ [c])); [done|]. by repeat constructor.
    + intros w Hne Hw. cbn [split_ws]. destruct (is_ws c) eqn:E.
      * destruct w as [|x w]; [done|]. apply (words_more [] (x :: w) c t); done.
      * change (c :: t) with ([c] ++ t). rewrite app_assoc. apply IH2; [by destruct w|]. apply Forall_app. split; [done|]. by repeat constructor.
Qed.
Lemma words_iff t l : words t l <-> l = split_ws [] t.
Proof. split; [apply words_split|]. intros ->. apply split_words_gen. Qed.

(** ** Marks and rules *)
Lemma last_check_mark t n : last_check t = Some n -> mark_at t n.
Proof. intros H. apply last_check_some in H as (b & r & ? & ?). by exists b, r. Qed.
Lemma last_check_max t n m : last_check t = Some n -> mark_at t m -> m <= n.
Proof.
  revert n m. induction t as [|c t IH]; intros n m H (b & r & Hb & Hl); cbn [last_check] in H; [done|]. destruct b as [|x b]; [simpl in Hl; lia|].
  change ((x :: b) ++ chars "@check-" ++ r) with (x :: (b ++ chars "@check-" ++ r)) in Hb. injection Hb as <- Hb. simpl in Hl.
  destruct (last_check t) as [m'|] eqn:L.
  - injection H as <-. specialize (IH m' (length b) eq_refl). feed pose proof IH; [by exists b, r|]. lia.
  - exfalso. rewrite Hb in L. by apply last_check_none_app in L.
Qed.
Lemma last_check_none t : last_check t = None <-> ~ has_mark t.
Proof.
  split.
  - intros H (n & b & r & -> & _). by apply last_check_none_app in H.
  - intros H. destruct (last_check t) as [n|] eqn:E; [|done]. destruct H. exists n. by apply last_check_mark.
Qed.
Lemma no_name_prefix k k' r r' : chars (as_str k) ++ chars ":" ++ r = chars (as_str k') ++ chars ":" ++ r' -> k = k' /\ r = r'.
Proof.
  intros H. destruct k, k'; cbn in H; (discriminate H || (injection H as H; done)).
Qed.
Lemma regex_kind k : k <> KWallTime <-> as_str k ∈ regex_names.
Proof. destruct k; split; intros H; try done; try (by apply (bool_decide_unpack _); vm_compute); try (exfalso; revert H; apply (bool_decide_unpack (¬ (_ ∈ _))); by vm_compute). Qed.
Lemma match_here_complete names k r t : t = at_check ++ chars (as_str k) ++ chars ":" ++ r -> as_str k ∈ names -> (forall n, n ∈ names -> exists k, n = as_str k) ->
  match_here names t = Some (chars (as_str k), r).
Proof.
  intros -> H Hn. induction names as [|n names IH]; [by apply elem_of_nil in H|]. rewrite match_here_cons. destruct (Hn n ltac:(by left)) as [k' ->].
  remember (at_check ++ chars (as_str k') ++ chars ":") as p eqn:Hp. destruct (starts p (at_check ++ chars (as_str k) ++ chars ":" ++ r)) eqn:E.
  - pose proof E as E2. apply starts_spec in E as [r' E]. rewrite E, drop_app. rewrite Hp in E. rewrite <- !app_assoc in E. apply app_inv_head in E. apply no_name_prefix in E as [-> ->]. done.
  - apply IH; [|intros m Hm; apply Hn; by right]. apply elem_of_cons in H as [He|H]; [|done]. rewrite <- He in Hp. exfalso. apply not_true_iff_false in E. apply E. apply starts_spec. exists r. rewrite Hp. by rewrite <- !app_assoc.
Qed.
Lemma regex_kinds n : n ∈ regex_names -> exists k, n = as_str k.
Proof. intros H. apply regex_from_str in H as (k & _ & ->). by exists k. Qed.
Lemma first_match_rule t s name rest : first_match t = Some (s, name, rest) -> exists k, name = chars (as_str k) /\ from_str name = Some k /\ rule_at t s k rest.
Proof.
  intros H. apply first_match_spec in H as (b & n & Hn & -> & <- & ->). pose proof Hn as Hn2. apply regex_from_str in Hn as (k & Hk & ->). exists k. split; [done|]. split; [done|].
  exists b. split; [done|]. split; [done|]. by apply regex_kind.
Qed.
Lemma first_match_min t n k r : rule_at t n k r -> exists s name rest, first_match t = Some (s, name, rest) /\ s <= n /\ (s = n -> name = chars (as_str k) /\ rest = r).
Proof.
  revert n. induction t as [|c t IH]; intros n (b & Hb & Hl & Hk); [by destruct b|]. cbn [first_match]. destruct b as [|x b].
  - rewrite (match_here_complete regex_names k r (c :: t)); [|done|by apply regex_kind|exact regex_kinds]. simpl in Hl. exists 0, (chars (as_str k)), r. split; [done|]. split; [lia|done].
  - change ((x :: b) ++ ?y) with (x :: (b ++ y)) in Hb. injection Hb as <- Hb. destruct (match_here regex_names (c :: t)) as [[nm rs]|].
    + exists 0, nm, rs. split; [done|]. split; [lia|]. simpl in Hl. lia.
    + destruct (IH (length b)) as (s & nm & rs & -> & Hs & He); [by exists b|]. exists (S s), nm, rs. split; [done|]. simpl in Hl. split; [lia|]. intros. apply He. lia.
Qed.
Lemma first_match_none t : first_match t = None <-> ~ has_rule t.
Proof.
  split.
  - intros H (n & k & r & Hr). apply first_match_min in Hr as (? & ? & ? & Hf & _). congruence.
  - intros H. destruct (first_match t) as [[[s nm] r]|] eqn:E; [|done]. destruct H. apply first_match_rule in E as (k & _ & _ & Hr). by exists s, k, r.
Qed.
Lemma rule_mark t n k r : rule_at t n k r -> mark_at t n.
Proof. intros (b & -> & Hl & _). exists b, (chars (as_str k) ++ chars ":" ++ r). done. Qed.

(** ** One line *)
Definition line_res (line : text) : option (list (check_kind * text) * list text) :=
  match last_check line with
  | None => Some ([], [])
  | Some f =>
    match first_match line with
    | Some (s, name, rest) => if decide (s < f) then None else k ← from_str name; Some (map (pair k) (split_ws [] rest), [])
    | None => Some ([], [line])
    end
  end.
Lemma two_marks_dec_spec line s name rest f : first_match line = Some (s, name, rest) -> last_check line = Some f -> two_marks line <-> s < f.
Proof.
  intros Hs Hf. split.
  - intros (n & k & r & m & Hr & Hm & Hlt). apply first_match_min in Hr as (s' & nm & rs & He & Hle & _). rewrite Hs in He. injection He as <- _ _. pose proof (last_check_max _ _ _ Hf Hm). lia.
  - intros Hlt. apply first_match_rule in Hs as (k & _ & _ & Hr). exists s, k, rest, f. split; [done|]. split; [by apply last_check_mark|done].
Qed.
Lemma line_res_none line : line_res line = None <-> two_marks line.
Proof.
  unfold line_res. destruct (last_check line) as [f|] eqn:L.
  - destruct (first_match line) as [[[s nm] r]|] eqn:F.
    + rewrite (two_marks_dec_spec _ _ _ _ _ F L). case_decide as H; [split; done|]. split; [|done]. apply first_match_rule in F as (k & _ & -> & _). done.
    + split; [done|]. intros (n & k & r & m & Hr & _). apply first_match_none in F. destruct F. by exists n, k, r.
  - split; [done|]. intros (n & k & r & m & Hr & _). apply last_check_none in L. destruct L. exists n. by eapply rule_mark.
Qed.
Lemma line_res_checks line c b k p : line_res line = Some (c, b) -> (k, p) ∈ c <-> exists n rest l, rule_at line n k rest /\ words rest l /\ p ∈ l.
Proof.
  intros H. assert (~ two_marks line) as H2. { rewrite <- line_res_none. congruence. }
  unfold line_res in H. destruct (last_check line) as [f|] eqn:L.
  - destruct (first_match line) as [[[s nm] r]|] eqn:F.
    + rewrite (two_marks_dec_spec _ _ _ _ _ F L) in H2. rewrite decide_False in H by done. pose proof F as F2. apply first_match_rule in F2 as (k0 & -> & Hk & Hr). rewrite Hk in H. cbn in H. injection H as <- <-.
      split.
      * intros Hin. apply elem_of_list_fmap in Hin as (p' & [= -> ->] & Hin). exists s, r, (split_ws [] r). split; [done|]. split; [by apply words_iff|done].
      * intros (n & rest & l & Hr' & Hw & Hp). apply words_iff in Hw as ->. pose proof (last_check_max _ _ _ L (rule_mark _ _ _ _ Hr')). pose proof (first_le_last _ _ _ _ _ F L).
        pose proof Hr' as Hr2. apply first_match_min in Hr' as (s' & nm' & rs & He & Hle & Heq). rewrite F in He. injection He as <- <- <-. destruct Heq as [Hc ->]; [lia|].
        assert (k0 = k) as ->. { rewrite Hc in Hk. destruct k; vm_compute in Hk; by injection Hk as <-. } apply elem_of_list_fmap. by exists p.
    + injection H as <- <-. split; [by intros ?%elem_of_nil|]. intros (n & r & l & Hr & _). apply first_match_none in F. destruct F. by exists n, k, r.
  - injection H as <- <-. split; [by intros ?%elem_of_nil|]. intros (n & r & l & Hr & _). apply last_check_none in L. destruct L. exists n. by eapply rule_mark.
Qed.
Lemma line_res_bad line c b : line_res line = Some (c, b) -> (b = [line] /\ has_mark line /\ ~ has_rule line) \/ (b = [] /\ (~ has_mark line \/ has_rule line)).
Proof.
  unfold line_res. intros H. destruct (last_check line) as [f|] eqn:L.
  - destruct (first_match line) as [[[s nm] r]|] eqn:F.
    + case_decide; [done|]. apply first_match_rule in F as (k0 & -> & Hk & Hr). rewrite Hk in H. cbn in H. injection H as <- <-. right. split; [done|]. right. by exists s, k0, r.
    + injection H as <- <-. left. split; [done|]. split; [exists f; by apply last_check_mark|]. by apply first_match_none.
  - injection H as <- <-. right. split; [done|]. left. by apply last_check_none.
Qed.

(** ** All the lines *)
Definition total (ls : list text) : nat := foldr (fun l n => length l + 1 + n) 0 ls.
Lemma total_app a b : total (a ++ b) = total a + total b.
Proof. unfold total. induction a as [|x a IH]; simpl; [done|]. rewrite IH. lia. Qed.
Lemma span_line_spec pre line post previous skipped found len : found < length line ->
  span_line (pre ++ line :: post) previous skipped (previous + total pre + found) len = if decide (length line < found + len) then None else Some (skipped + length pre + 1).
Proof.
  intros Hf. revert previous skipped. induction pre as [|l pre IH]; intros previous skipped.
  - cbn [app span_line]. rewrite decide_False by (cbn; lia). rewrite decide_False by (cbn; lia). replace (previous + total [] + found - previous) with found by (cbn; lia). simpl. by rewrite Nat.add_0_r.
  - cbn [app span_line]. change (total (l :: pre)) with (length l + 1 + total pre). rewrite decide_False by lia. rewrite decide_True by lia.
    replace (previous + (length l + 1 + total pre) + found) with (previous + (length l + 1) + total pre + found) by lia. rewrite IH. case_decide; [done|]. f_equal. simpl. lia.
Qed.
Fixpoint extract_from (i : nat) (ls : list text) : option (list sol_check * list text) :=
  match ls with
  | [] => Some ([], [])
  | line :: ls => '(c, b) ← line_res line; '(c', b') ← extract_from (S i) ls; Some (map (fun x => SolCheck x.1 x.2 (S i)) c ++ c', b ++ b')
  end.
Lemma mark_lt t n : mark_at t n -> n < length t.
Proof. intros (b & r & -> & <-). rewrite !app_length. cbn. lia. Qed.
Lemma extract_lines_from pre ls : extract_lines (pre ++ ls) ls (total pre) = extract_from (length pre) ls.
Proof.
  revert pre. induction ls as [|line ls IH]; intros pre; cbn [extract_lines extract_from]; [done|].
  specialize (IH (pre ++ [line])). rewrite <- app_assoc in IH. cbn [app] in IH. rewrite total_app, app_length in IH. cbn [length total foldr] in IH. replace (total pre + (length line + 1 + 0)) with (total pre + (length line + 1)) in IH by lia. rewrite (Nat.add_1_r (length pre)) in IH. cbv zeta.
  unfold line_res. destruct (last_check line) as [f|] eqn:L.
  - replace (total pre + (length line + 1) - 1 - length line + f) with (0 + total pre + f) by lia. destruct (first_match line) as [[[s nm] r]|] eqn:F.
    + rewrite span_line_spec by (apply mark_lt; by apply last_check_mark). pose proof (mark_lt _ _ (last_check_mark _ _ L)). pose proof (first_le_last _ _ _ _ _ F L).
      destruct (decide (s < f)) as [Hlt|Hlt].
      * rewrite decide_True by lia. done.
      * rewrite decide_False by lia. cbn [mbind option_bind]. destruct (from_str nm) as [k|]; [|done]. cbn [mbind option_bind]. rewrite IH. destruct (extract_from (S (length pre)) ls) as [[c' b']|]; [|done]. cbn [mbind option_bind]. do 2 f_equal.
        rewrite map_map. replace (0 + length pre + 1) with (S (length pre)) by lia. done.
    + rewrite IH. cbn [mbind option_bind]. destruct (extract_from (S (length pre)) ls) as [[c' b']|]; done.
  - rewrite IH. cbn [mbind option_bind]. destruct (extract_from (S (length pre)) ls) as [[c' b']|]; done.
Qed.
Lemma extract_eq content : extract content = extract_from 0 (split_nl content).
Proof. apply (extract_lines_from [] (split_nl content)). Qed.
Lemma extract_from_none i ls : extract_from i ls = None <-> Exists two_marks ls.
Proof.
  revert i. induction ls as [|line ls IH]; intros i; cbn [extract_from]; [split; [done|by intros ?%Exists_nil]|]. rewrite Exists_cons. destruct (line_res line) as [[c b]|] eqn:E.
  - cbn [mbind option_bind]. rewrite <- (IH (S i)). assert (~ two_marks line) by (rewrite <- line_res_none; congruence). destruct (extract_from (S i) ls) as [[c' b']|]; cbn [mbind option_bind]; [|tauto]. split; [done|]. intros [?|?]; done.
  - apply line_res_none in E. cbn. split; [by left|done].
Qed.
Lemma extract_from_checks i ls c b x : extract_from i ls = Some (c, b) -> x ∈ c <-> exists j, sc_line x = i + j + 1 /\ written ls j (sc_kind x) (sc_pattern x).
Proof.
  revert i c b. induction ls as [|line ls IH]; intros i c b H; cbn [extract_from] in H.
  - injection H as <- <-. split; [by intros ?%elem_of_nil|]. intros (j & _ & line & n & rest & l & Hj & _). done.
  - destruct (line_res line) as [[c0 b0]|] eqn:E; [|done]. cbn [mbind option_bind] in H. destruct (extract_from (S i) ls) as [[c1 b1]|] eqn:E1; [|done]. cbn [mbind option_bind] in H. injection H as <- <-.
    rewrite elem_of_app, (IH (S i) c1 b1 E1). split.
    + intros [Hin|(j & Hj & line' & n & rest & l & Hl & H)].
      * apply elem_of_list_fmap in Hin as ([k p] & -> & Hin). apply (line_res_checks _ _ _ _ _ E) in Hin as (n & rest & l & Hr & Hw & Hp). exists 0. split; [simpl; lia|]. by exists line, n, rest, l.
      * exists (S j). split; [lia|]. by exists line', n, rest, l.
    + intros (j & Hj & line' & n & rest & l & Hl & H). destruct j as [|j].
      * left. injection Hl as <-. apply elem_of_list_fmap. exists (sc_kind x, sc_pattern x). split; [destruct x as [k p m]; simpl in *; f_equal; lia|]. apply (line_res_checks _ _ _ _ _ E). by exists n, rest, l.
      * right. exists j. split; [lia|]. by exists line', n, rest, l.
Qed.
Lemma extract_from_bad i ls c b line : extract_from i ls = Some (c, b) -> line ∈ b <-> line ∈ ls /\ has_mark line /\ ~ has_rule line.
Proof.
  revert i c b. induction ls as [|l ls IH]; intros i c b H; cbn [extract_from] in H.
  - injection H as <- <-. split; [by intros ?%elem_of_nil|]. by intros [?%elem_of_nil _].
  - destruct (line_res l) as [[c0 b0]|] eqn:E; [|done]. cbn [mbind option_bind] in H. destruct (extract_from (S i) ls) as [[c1 b1]|] eqn:E1; [|done]. cbn [mbind option_bind] in H. injection H as <- <-.
    rewrite elem_of_app, (IH (S i) c1 b1 E1), elem_of_cons. apply line_res_bad in E as [(-> & Hm & Hr)|(-> & Hm)].
    + rewrite elem_of_list_singleton. split; [|tauto]. intros [->|?]; tauto.
    + rewrite elem_of_nil. split; [tauto|]. intros ([->|?] & ? & ?); [|tauto]. tauto.
Qed.

(** ** The lines that are kept *)
Lemma keep_app {A} n R (a b : list A) : keep n R (a ++ b) = keep n R a ++ keep (n + length a) R b.
Proof.
  revert n. induction a as [|x a IH]; intros n; cbn [app keep length]; [by rewrite Nat.add_0_r|]. rewrite (IH (S n)). replace (S n + length a) with (n + S (length a)) by lia. by destruct (R n).
Qed.
Lemma keep_all {A} n R (l : list A) : (forall i, n <= i -> i < n + length l -> R i = false) -> keep n R l = l.
Proof.
  revert n. induction l as [|x l IH]; intros n H; cbn [keep]; [done|]. rewrite H by (simpl; lia). f_equal. apply IH. intros i H1 H2. apply H; simpl; lia.
Qed.
Lemma keep_ext {A} n R R' (l : list A) : (forall i, n <= i -> i < n + length l -> R i = R' i) -> keep n R l = keep n R' l.
Proof.
  revert n. induction l as [|x l IH]; intros n H; cbn [keep]; [done|]. rewrite (H n) by (simpl; lia). rewrite (IH (S n)); [done|]. intros i H1 H2. apply H; simpl; lia.
Qed.
Lemma remove_each_keep {A} is (l : list A) : StronglySorted (fun a b => b < a) is -> Forall (fun i => i < length l) is -> remove_each is l = Some (keep 0 (fun i => bool_decide (i ∈ is)) l).
Proof.
  intros Hs. revert l. induction Hs as [|i is Hs IH Hi]; intros l Hl; cbn [remove_each].
  - rewrite keep_all; [done|]. intros i _ _. by apply bool_decide_eq_false_2, not_elem_of_nil.
  - apply Forall_cons in Hl as [Hil Hl]. unfold remove_at at 1. rewrite decide_True by done. cbn [mbind option_bind].
    assert (length (take i l) = i) as Hti by (rewrite take_length; lia).
    rewrite IH.
    + f_equal. rewrite <- (take_drop i l) at 3. destruct (drop i l) as [|x d] eqn:D. { apply (f_equal length) in D. rewrite drop_length in D. simpl in D. lia. }
      assert (drop (S i) l = d) as ->. { rewrite <- (Nat.add_1_r i). rewrite <- drop_drop, D. done. }
      rewrite !keep_app, Hti. cbn [Nat.add keep]. rewrite bool_decide_eq_true_2 by (by left). f_equal.
      * apply keep_ext. intros j _ Hj. rewrite Hti in Hj. apply bool_decide_ext. rewrite elem_of_cons. split; [by right|]. intros [->|?]; [lia|done].
      * rewrite !keep_all; [done| |].
        -- intros j H1 H2. apply bool_decide_eq_false_2. rewrite elem_of_cons. intros [->|Hj]; [lia|]. rewrite Forall_forall in Hi. specialize (Hi _ Hj). lia.
        -- intros j H1 H2. apply bool_decide_eq_false_2. intros Hj. rewrite Forall_forall in Hi. specialize (Hi _ Hj). lia.
    + apply Forall_forall. intros j Hj. rewrite Forall_forall in Hi. specialize (Hi _ Hj). rewrite app_length, Hti, drop_length. lia.
Qed.
Lemma sorted_rev is : NoDup is -> StronglySorted (fun a b => b < a) (rev (merge_sort le is)).
Proof.
  intros Hn. assert (StronglySorted le (merge_sort le is)) as Hs by (apply (StronglySorted_merge_sort le); intros a b; lia). assert (NoDup (merge_sort le is)) as Hd by (by rewrite merge_sort_Permutation).
  revert Hs Hd. generalize (merge_sort le is). intros l Hs. induction Hs as [|x l Hs IH Hx]; intros Hd; cbn [rev]; [constructor|]. apply NoDup_cons in Hd as [Hnx Hd]. specialize (IH Hd).
  revert IH. assert (Forall (fun y => x < y) (rev l)) as Hf. { apply Forall_forall. intros y Hy. rewrite <- elem_of_list_In, <- in_rev, elem_of_list_In in Hy || (apply elem_of_list_In, in_rev, elem_of_list_In in Hy). rewrite Forall_forall in Hx. specialize (Hx y Hy). assert (x <> y) by (intros ->; done). lia. }
  revert Hf. generalize (rev l). intros r Hf Hr. induction Hr as [|y r Hr IH2 Hy]; cbn [app]; [repeat constructor|]. apply Forall_cons in Hf as [Hy2 Hf]. constructor; [by apply IH2|]. apply Forall_app. split; [done|]. by repeat constructor.
Qed.
