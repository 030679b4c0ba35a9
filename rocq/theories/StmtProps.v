(** * StmtProps: C85, the subtasks in the statement *)
From Verif Require Export FloatModel SanityModel StmtModel StmtSpec BookletSpec LatexSpec.
From Verif Require Import LangProofs2 StmtProofs StmtProofs2 StmtProofs3 RegexProofs BookletProofs2 LatexProps FloatProofs SanityProofs2.
From Coq Require Import Ascii String NArith ZArith Lia.
From stdpp Require Import base list sorting.
Local Open Scope nat_scope.

(** ** What is found in the text *)
Theorem C85_new t : exists us : list unit, in_lines (fun l _ => written_new l) (lines_of t) us
  /\ check_subtasks_oii_new t = match us with [] => None | _ => Some (imap (fun i _ => Extracted (N.of_nat i) None) us) end.
Proof.
  exists (map (fun _ => tt) (omap (line_caps (line_re new_body)) (lines_of t))). split.
  - replace (map (fun _ => tt) (omap (line_caps (line_re new_body)) (lines_of t))) with (omap (fun l => match line_caps (line_re new_body) l with Some _ => Some tt | None => None end) (lines_of t)).
    + apply in_lines_omap; intros l x Hl H; apply lines_no_newline in Hl; destruct (line_caps (line_re new_body) l) as [c|] eqn:E; try done.
      * assert (run (line_re new_body) l <> []) as Hr by (unfold line_caps in E; by destruct (run (line_re new_body) l)). apply line_lang in Hr as (a & m & b & -> & L); [|done]. apply new_lang in L as ->.
        exists a, b. done.
      * intros (a & b & Eq). rewrite line_none in E by done. by apply (E a (backslash :: chars "subtask") b); [rewrite Eq|apply new_lang].
    + induction (lines_of t) as [|l ls IH]; [done|]. cbn [omap list_omap]. destruct (line_caps (line_re new_body) l); [|done]. cbn [map]. by f_equal.
  - unfold check_subtasks_oii_new. pose proof (new_captures t) as H. revert H. generalize (captures_iter new_re t), (omap (line_caps (line_re new_body)) (lines_of t)). intros l1 l2 H.
    assert (forall {A B C} (f : nat -> C) (u : list A) (v : list B), length u = length v -> imap (fun i _ => f i) u = imap (fun i _ => f i) v) as Hi.
    { intros A B C f u. revert f. induction u as [|x u IH]; intros f [|y v] E; try done. cbn [imap]. f_equal. injection E as E. exact (IH (fun i => f (S i)) v E). }
    rewrite (Hi _ _ _ (fun i => Extracted (N.of_nat i) None) l1 (map (fun _ => tt) l2)) by by rewrite map_length. by destruct l2.
Qed.
Theorem C85_ois t : exists scores, in_lines written_ois (lines_of t) scores
  /\ check_subtasks_ois t = match scores with [] => None | _ => Some (imap (fun i s => Extracted (N.of_nat i) (Some (f64_of_Z (Z.of_N (value 0 s))))) scores) end.
Proof.
  exists (omap (fun l => match line_caps (line_re ois_body) l with Some c => capture 1 c | None => None end) (lines_of t)). split.
  - apply in_lines_omap; intros l x Hl H; apply lines_no_newline in Hl; destruct (line_caps (line_re ois_body) l) as [c|] eqn:E; try done.
    + apply ois_line in E as (s & E1 & E2); [|done]. congruence.
    + apply ois_line in E as (s & E1 & E2); [|done]. congruence.
    + by apply ois_none.
  - unfold check_subtasks_ois. rewrite ois_captures.
    assert (forall l, l ∈ lines_of t -> newline ∉ l) as Hn by apply lines_no_newline. revert Hn. generalize (lines_of t). intros ls Hn.
    assert (forall k, imap (fun i c => Extracted (N.of_nat (k + i)) (match capture 1 c with Some s => Some (parse_f64 s) | None => None end)) (omap (line_caps (line_re ois_body)) ls)
      = imap (fun i s => Extracted (N.of_nat (k + i)) (Some (f64_of_Z (Z.of_N (value 0 s))))) (omap (fun l => match line_caps (line_re ois_body) l with Some c => capture 1 c | None => None end) ls)) as H.
    { induction ls as [|l ls IH]; intros k; [done|]. cbn [omap list_omap]. specialize (IH ltac:(intros x Hx; apply Hn; by right)). destruct (line_caps (line_re ois_body) l) as [c|] eqn:E; [|apply IH].
      apply ois_line in E as (s & E1 & _); [|apply Hn; by left]. rewrite E1. cbn [imap]. rewrite E1. unfold parse_f64 at 1. rewrite number_value. f_equal. specialize (IH (S k)).
      etrans; [|etrans; [exact IH|]]; apply imap_ext; intros i ? ?; unfold compose; cbn beta; do 2 f_equal; lia. }
    specialize (H 0). cbn [Nat.add] in H. rewrite H. match goal with |- context [imap _ ?l] => by destruct l end.
Qed.
Theorem C85_oii t : phantoms_closed t -> exists items : list (text * text), in_lines (fun l x => written_oii l (fst x) (snd x)) (lines_of t) items
  /\ check_subtasks_oii t = match items with
                            | [] => None
                            | _ => if forallb (fun x => (value 0 (fst x) <? 2 ^ 32)%N) items
                                   then Some (map (fun x => Extracted (value 0 (fst x)) (Some (f64_of_Z (Z.of_N (value 0 (snd x)))))) items) else None
                            end.
Proof.
  intros Ht. set (r := line_re (oii_with not_brace_line)).
  set (f := fun l => match line_caps r l with Some c => match capture 2 c, capture 4 c with Some i, Some s => Some (i, s) | _, _ => None end | None => None end).
  assert (forall l c, newline ∉ l -> line_caps r l = Some c -> exists i s, capture 2 c = Some i /\ capture 4 c = Some s /\ f l = Some (i, s) /\ written_oii l i s) as Hf.
  { intros l c Hl E. pose proof (oii_line l c Hl E) as (i & s & E1 & E2 & Hw). exists i, s. unfold f. rewrite E, E1, E2. done. }
  exists (omap f (lines_of t)). split.
  - apply in_lines_omap; intros l x Hl H; apply lines_no_newline in Hl; unfold f in H.
    + destruct (line_caps r l) as [c|] eqn:E; [|done]. destruct (Hf l c Hl E) as (i & s & E1 & E2 & _ & Hw). rewrite E1, E2 in H. by injection H as <-.
    + destruct (line_caps r l) as [c|] eqn:E; [|by apply oii_none]. destruct (Hf l c Hl E) as (i & s & E1 & E2 & _ & Hw). by rewrite E1, E2 in H.
  - unfold check_subtasks_oii. rewrite oii_captures by done. fold r.
    assert (forall l, l ∈ lines_of t -> newline ∉ l) as Hn by apply lines_no_newline. revert Hn. generalize (lines_of t). intros ls Hn.
    assert (mapM oii_item (omap (line_caps r) ls) = if forallb (fun x => (value 0 (fst x) <? 2 ^ 32)%N) (omap f ls)
      then Some (map (fun x => Extracted (value 0 (fst x)) (Some (f64_of_Z (Z.of_N (value 0 (snd x)))))) (omap f ls)) else None) as ->.
    { induction ls as [|l ls IH]; [done|]. cbn [omap list_omap]. specialize (IH ltac:(intros x Hx; apply Hn; by right)). destruct (line_caps r l) as [c|] eqn:E.
      - destruct (Hf l c) as (i & s & E1 & E2 & -> & _); [apply Hn; by left|done|]. assert (oii_item c = if (value 0 i <? 2 ^ 32)%N then Some (Extracted (value 0 i) (Some (f64_of_Z (Z.of_N (value 0 s))))) else None) as Hc.
        { unfold oii_item. rewrite E1, E2. unfold parse_u32, parse_f64. rewrite !number_value. change (2 ^ 32)%N with 4294967296%N. by destruct (_ <? _)%N. }
        change (mapM oii_item (c :: omap (line_caps r) ls)) with (y ← oii_item c; k ← mapM oii_item (omap (line_caps r) ls); mret (y :: k)). rewrite Hc, IH. cbn [forallb fst map snd].
        destruct (value 0 i <? 2 ^ 32)%N; [|done]. cbn [andb]. by destruct (forallb _ _).
      - assert (f l = None) as -> by (unfold f; by rewrite E). apply IH. }
    destruct (omap f ls) as [|x xs]; [done|]. by destruct (forallb _ _).
Qed.
(** What a line says is determined by it *)
Lemma split_at {A} (P : A -> Prop) (a a' : list A) c c' r r' : Forall P a -> Forall P a' -> ~ P c -> ~ P c' -> a ++ c :: r = a' ++ c' :: r' -> a = a' /\ c = c' /\ r = r'.
Proof.
  intros Ha. revert a'. induction Ha as [|x a Hx Ha IH]; intros a' Ha' Hc Hc' E.
  - destruct a' as [|y a']; [by injection E as -> ->|]. injection E as -> _. apply Forall_cons in Ha' as [? _]. done.
  - destruct a' as [|y a']; [injection E as -> _; done|]. injection E as -> E. apply Forall_cons in Ha' as [_ Ha']. destruct (IH a' Ha' Hc Hc' E) as (-> & -> & ->). done.
Qed.
Lemma digits_then ds ds' c c' r r' : number ds -> number ds' -> is_digit c = false -> is_digit c' = false -> ds ++ c :: r = ds' ++ c' :: r' -> ds = ds' /\ c = c' /\ r = r'.
Proof. intros H H' Hc Hc' E. apply number_spec in H as [H _]. apply number_spec in H' as [H' _]. eapply split_at; [exact H|exact H'|cbn; congruence|cbn; congruence|exact E]. Qed.
Lemma same_length_app {A} (a a' b b' : list A) : a ++ b = a' ++ b' -> length a = length a' -> a = a' /\ b = b'.
Proof. intros E H. by apply app_inj_1. Qed.
Theorem C85_ois_unique l s s' : written_ois l s -> written_ois l s' -> s = s'.
Proof.
  intros (a & H & M) (a' & H' & M'). assert (length a = length a') as El by (apply Nat.le_antisymm; [by eapply M'|by eapply M]).
  destruct H as (cmd & k & body & b & E & Hc & Hs & _ & _), H' as (cmd' & k' & body' & b' & E' & Hc' & Hs' & _ & _). rewrite E in E'. apply same_length_app in E' as [_ E']; [|done].
  apply (f_equal (@tl _)) in E'. cbn [tl] in E'. assert (cmd = cmd') as -> by (destruct Hc as [->| ->], Hc' as [->| ->]; done). apply app_inv_head in E'. apply (f_equal (@tl _)) in E'. cbn [tl] in E'.
  change (chars "}{" ++ ?x) with ("}"%char :: "{"%char :: x) in E'. eapply digits_then in E' as (? & _); done.
Qed.
Theorem C85_oii_unique l i s i' s' : written_oii l i s -> written_oii l i' s' -> i = i' /\ s = s'.
Proof.
  intros (a & H & M) (a' & H' & M'). assert (length a = length a') as El by (apply Nat.le_antisymm; [by eapply M'|by eapply M]).
  destruct H as (sp & ph & c & b & E & Hi & Hs & Hsp & Hph & Hc), H' as (sp' & ph' & c' & b' & E' & Hi' & Hs' & Hsp' & Hph' & Hc'). rewrite E in E'. apply same_length_app in E' as [_ E']; [|done].
  apply app_inv_head in E'. eapply digits_then in E' as (-> & _ & E'); [|done|done|done|done]. split; [done|].
  eapply (split_at (fun x => x = " "%char)) in E' as (_ & _ & E'); [|done|done|done|done].
  assert (forall (c : text) (b : text), (forall x r, c = x :: r -> x ∉ chars "0123456789") -> exists e r, c ++ "]"%char :: b = e :: r /\ is_digit e = false) as Hcb.
  { intros u v Hu. destruct u as [|e u]; [by exists "]"%char, v|]. exists e, (u ++ "]"%char :: v). split; [done|]. destruct (is_digit e) eqn:Ed; [|done]. apply digit_spec in Ed. exfalso. by eapply Hu. }
  destruct (Hcb c b Hc) as (e & r & Ee & De), (Hcb c' b' Hc') as (e' & r' & Ee' & De'). rewrite Ee, Ee' in E'.
  assert (ph = ph') as ->; [|apply app_inv_head in E'; by eapply digits_then in E' as (? & _)].
  destruct s as [|d s]; [by destruct Hs|]. destruct s' as [|d' s']; [by destruct Hs'|]. apply number_spec in Hs as [Hs _]. apply number_spec in Hs' as [Hs' _]. apply Forall_cons in Hs as [Hd _]. apply Forall_cons in Hs' as [Hd' _].
  destruct Hph as [->|(w & -> & Hw & Hb)], Hph' as [->|(w' & -> & Hw' & Hb')]; [done| | |].
  - exfalso. cbn [app] in E'. injection E' as -> _. done.
  - exfalso. cbn [app] in E'. injection E' as <- _. done.
  - change ((backslash :: ?x) ++ ?y) with (backslash :: (x ++ y)) in E'. apply (f_equal (@tl _)) in E'. cbn [tl] in E'. rewrite <- !app_assoc in E'. apply app_inv_head in E'. cbn [app] in E'.
    eapply (split_at (fun x => x <> "}"%char)) in E' as (-> & _); [done| | |by intros ?|by intros ?]; apply Forall_forall; intros x Hx ->; done.
Qed.

Lemma in_lines_fun {A} (P : text -> A -> Prop) ls xs ys : (forall l x y, P l x -> P l y -> x = y) -> in_lines P ls xs -> in_lines P ls ys -> xs = ys.
Proof.
  intros Hf Hx. revert ys. induction Hx as [|l ls x xs Hp Hx IH|l ls xs Hn Hx IH]; intros ys Hy; inversion Hy; subst; [done| | | |].
  - f_equal; [by eapply Hf|by apply IH].
  - exfalso. by eapply H1.
  - exfalso. by eapply Hn.
  - by apply IH.
Qed.
(** The formats are tried in this order: OII if all its numbers fit in 32 bits, the new one of OII, OIS *)
Theorem C85_extract t items us scores : phantoms_closed t ->
  in_lines (fun l x => written_oii l (fst x) (snd x)) (lines_of t) items -> in_lines (fun l (_ : unit) => written_new l) (lines_of t) us -> in_lines written_ois (lines_of t) scores ->
  extract_subtasks t =
    if bool_decide (items <> []) && forallb (fun x => (value 0 (fst x) <? 2 ^ 32)%N) items then Some (map (fun x => Extracted (value 0 (fst x)) (Some (f64_of_Z (Z.of_N (value 0 (snd x)))))) items)
    else if bool_decide (us <> []) then Some (imap (fun i _ => Extracted (N.of_nat i) None) us)
    else if bool_decide (scores <> []) then Some (imap (fun i s => Extracted (N.of_nat i) (Some (f64_of_Z (Z.of_N (value 0 s))))) scores)
    else None.
Proof.
  intros Ht Hi Hu Hs. destruct (C85_oii t Ht) as (items' & Hi' & E1). destruct (C85_new t) as (us' & Hu' & E2). destruct (C85_ois t) as (scores' & Hs' & E3).
  assert (items' = items) as -> by (eapply in_lines_fun; [|exact Hi'|exact Hi]; intros l [x1 x2] [y1 y2] Hx Hy; cbn in *; destruct (C85_oii_unique _ _ _ _ _ Hx Hy) as [-> ->]; done).
  assert (us' = us) as -> by (eapply in_lines_fun; [|exact Hu'|exact Hu]; by intros ? [] []).
  assert (scores' = scores) as -> by (eapply in_lines_fun; [|exact Hs'|exact Hs]; intros; by eapply C85_ois_unique).
  unfold extract_subtasks. rewrite E1, E2, E3. clear. destruct items as [|x items]; destruct us as [|u us]; destruct scores as [|s scores]; try reflexivity; by destruct (forallb _ (x :: items)).
Qed.

(** ** What is reported *)
Lemma first_number_spec xs : first_number xs = counts_from xs.
Proof. destruct xs as [|x xs]; [done|]. cbn. destruct (decide (x_id x = 1%N)) as [->|H]; [done|]. apply N.eqb_neq in H. by rewrite H. Qed.
Lemma expected_spec sts es : in_order sts es -> expected_subtasks sts = es.
Proof.
  intros [Hp Hs]. unfold expected_subtasks. 
  assert (StronglySorted subtask_le es) as Hs'. { clear Hp. induction Hs as [|e es Hs IH He]; constructor; [done|]. eapply Forall_impl; [exact He|]. intros x Hx. unfold subtask_le. cbn in Hx. lia. }
  assert (StronglySorted subtask_le (merge_sort subtask_le sts)) as Hm. { apply Sorted_StronglySorted; [intros a b c; unfold subtask_le; lia|]. apply Sorted_merge_sort. intros a b. unfold subtask_le. lia. }
  assert (merge_sort subtask_le sts ≡ₚ es) as Hpm by (rewrite Hp; apply merge_sort_Permutation).
  assert (forall a b, a ∈ es -> b ∈ es -> fst a = fst b -> a = b) as Hinj.
  { clear -Hs. induction Hs as [|e es Hs IH He]; intros a b Ha Hb E; [by apply elem_of_nil in Ha|]. pose proof (proj1 (Forall_forall _ _) He) as He'. cbn beta in He'.
    apply elem_of_cons in Ha as [->|Ha]; apply elem_of_cons in Hb as [->|Hb]; [done|apply He' in Hb; lia|apply He' in Ha; lia|by apply IH]. }
  clear Hp Hs. revert es Hs' Hpm Hinj. induction Hm as [|m ms Hm IH Hfm]; intros es Hs Hpm Hinj; [by apply Permutation_nil in Hpm|].
  destruct Hs as [|e es Hs He]; [symmetry in Hpm; by apply Permutation_nil_cons in Hpm|].
  assert (m = e) as ->.
  { assert (m ∈ e :: es) as H1 by (rewrite <- Hpm; left). assert (e ∈ m :: ms) as H2 by (rewrite Hpm; left). apply Hinj; [done|left|]. pose proof (proj1 (Forall_forall _ _) He) as He'. pose proof (proj1 (Forall_forall _ _) Hfm) as Hfm'.
    apply elem_of_cons in H1 as [->|H1]; [done|]. apply elem_of_cons in H2 as [->|H2]; [done|]. apply He' in H1. apply Hfm' in H2. unfold subtask_le in *. lia. }
  f_equal. apply IH; [done|by apply Permutation_cons_inv in Hpm|]. intros a b Ha Hb. apply Hinj; by right.
Qed.
Lemma compare_nil k base es xs : compare_subtasks k base es xs = [] <-> forall i, agree_at base es xs i.
Proof.
  revert xs. induction es as [|e es IH]; intros xs.
  - split; [|done]. intros _ i e x H. by rewrite lookup_nil in H.
  - destruct xs as [|x xs]; [split; [|done]; intros _ i e' x _ H; by rewrite lookup_nil in H|]. cbn [compare_subtasks].
    assert ((forall i, agree_at base (e :: es) (x :: xs) i) <-> same_number base e x /\ same_score e x /\ forall i, agree_at base es xs i) as ->.
    { split.
      - intros H. destruct (H 0 e x eq_refl eq_refl) as [H1 H2]. split_and!; [done|done|]. intros i e' x' He Hx. by apply (H (S i) e' x').
      - intros (H1 & H2 & H3) [|i] e' x' He Hx; [injection He as <-; by injection Hx as <-|by apply (H3 i)]. }
    rewrite <- IH. unfold same_number, same_score. destruct (decide _) as [E|E]; [|split; [done|intros [H _]; congruence]].
    destruct (x_score x) as [s|]; [|naive_solver]. destruct (abs_diff_eq (snd e) s) eqn:Es; [naive_solver|]. split; [done|]. intros (_ & H & _). specialize (H s eq_refl). congruence.
Qed.
(** Nothing is reported if and only if the statement has the subtasks of the task, in order, with their scores (where it says them) *)
Theorem C85_silent k sts es source : in_order sts es -> check_statement k (expected_subtasks sts) source = [] <->
  forall xs, extract_subtasks source = Some xs -> length xs = length es /\ forall i, agree_at (counts_from xs) es xs i.
Proof.
  intros H. rewrite (expected_spec _ _ H). unfold check_statement. destruct (extract_subtasks source) as [xs|]; [|split; [done|done]]. rewrite first_number_spec.
  assert (forall (a b : list stmt_diag), a ++ b = [] <-> a = [] /\ b = []) as Ha by (intros [] b; naive_solver). rewrite Ha, compare_nil. destruct (decide (length es = length xs)) as [E|E]; naive_solver.
Qed.
Lemma compare_in k base es xs d : d ∈ compare_subtasks k base es xs <-> exists i e x, es !! i = Some e /\ xs !! i = Some x /\ (forall j, j < i -> agree_at base es xs j)
  /\ (d = SNumber k (fst e + base) (x_id x) /\ ~ same_number base e x \/ exists s, same_number base e x /\ x_score x = Some s /\ abs_diff_eq (snd e) s = false /\ d = SScore k (x_id x) (snd e) s).
Proof.
  revert xs. induction es as [|e es IH]; intros xs; [split; [intros H; by apply elem_of_nil in H|intros (i & e & x & H & _); by rewrite lookup_nil in H]|].
  destruct xs as [|x xs]; [split; [intros H; by apply elem_of_nil in H|intros (i & e' & x & _ & H & _); by rewrite lookup_nil in H]|]. cbn [compare_subtasks].
  assert (forall i, agree_at base (e :: es) (x :: xs) (S i) <-> agree_at base es xs i) as HS by done.
  assert (agree_at base (e :: es) (x :: xs) 0 <-> same_number base e x /\ same_score e x) as H0.
  { unfold agree_at. cbn. naive_solver. }
  assert (same_number base e x /\ same_score e x -> d ∈ compare_subtasks k base es xs <-> exists i e0 x0, (e :: es) !! i = Some e0 /\ (x :: xs) !! i = Some x0 /\ (forall j, j < i -> agree_at base (e :: es) (x :: xs) j)
    /\ (d = SNumber k (fst e0 + base) (x_id x0) /\ ~ same_number base e0 x0 \/ exists s, same_number base e0 x0 /\ x_score x0 = Some s /\ abs_diff_eq (snd e0) s = false /\ d = SScore k (x_id x0) (snd e0) s)) as Hgo.
  { intros Hok. rewrite IH. split.
    - intros (i & e' & x' & He & Hx & Hj & Hd). exists (S i), e', x'. split_and!; [done|done| |done]. intros [|j] Hji; [by apply H0|apply (proj2 (HS j)), Hj; lia].
    - intros ([|i] & e' & x' & He & Hx & Hj & Hd).
      + exfalso. injection He as <-. injection Hx as <-. destruct Hok as [K1 K2]. destruct Hd as [[_ Hd]|(s & _ & Hs & Hd & _)]; [done|]. rewrite (K2 s Hs) in Hd. done.
      + exists i, e', x'. split_and!; [done|done| |done]. intros j Hji. apply (proj1 (HS j)), Hj. lia. }
  unfold same_number, same_score in *. destruct (decide _) as [E|E].
  - destruct (x_score x) as [s|] eqn:Es.
    + destruct (abs_diff_eq (snd e) s) eqn:Ed; [apply Hgo; split; [done|]; intros s' [= <-]; done|]. rewrite elem_of_list_singleton. split.
      * intros ->. exists 0, e, x. split_and!; [done|done|lia|]. right. exists s. done.
      * intros ([|i] & e' & x' & He & Hx & Hj & Hd).
        -- injection He as <-. injection Hx as <-. destruct Hd as [[_ Hd]|(s' & _ & Hs & _ & ->)]; [congruence|]. congruence.
        -- exfalso. destruct (proj1 H0 (Hj 0 ltac:(lia))) as [_ H]. specialize (H s eq_refl). congruence.
    + apply Hgo. split; [done|]. intros s' ?. done.
  - rewrite elem_of_list_singleton. split.
    + intros ->. exists 0, e, x. split_and!; [done|done|lia|]. left. split; [done|]. congruence.
    + intros ([|i] & e' & x' & He & Hx & Hj & Hd).
      * injection He as <-. injection Hx as <-. destruct Hd as [[-> _]|(s' & Hn & _)]; [done|congruence].
      * exfalso. destruct (proj1 H0 (Hj 0 ltac:(lia))) as [H _]. congruence.
Qed.
(** What is reported: the first subtask with another number or score, and the wrong number of subtasks *)
Theorem C85_reported k sts es source xs d : in_order sts es -> extract_subtasks source = Some xs ->
  d ∈ check_statement k (expected_subtasks sts) source <->
  (exists i e x, es !! i = Some e /\ xs !! i = Some x /\ (forall j, j < i -> agree_at (counts_from xs) es xs j)
    /\ (d = SNumber k (fst e + counts_from xs) (x_id x) /\ ~ same_number (counts_from xs) e x
        \/ exists s, same_number (counts_from xs) e x /\ x_score x = Some s /\ abs_diff_eq (snd e) s = false /\ d = SScore k (x_id x) (snd e) s))
  \/ d = SCount k (length es) (length xs) /\ length es <> length xs.
Proof.
  intros H E. rewrite (expected_spec _ _ H). unfold check_statement. rewrite E, first_number_spec, elem_of_app, compare_in. destruct (decide _) as [Hl|Hl].
  - split; [intros [?|H']; [by left|by apply elem_of_nil in H']|intros [?|[_ ?]]; [by left|done]].
  - rewrite elem_of_list_singleton. naive_solver.
Qed.
Theorem C85_at_most_two k es source : length (check_statement k es source) <= 2.
Proof.
  unfold check_statement. destruct (extract_subtasks source) as [xs|]; [|cbn; lia]. rewrite app_length.
  assert (forall base xs, length (compare_subtasks k base es xs) <= 1) as H.
  { intros base. induction es as [|e es' IH]; intros [|x ys]; cbn [compare_subtasks length]; try lia. destruct (decide _); [|cbn; lia]. destruct (x_score x); [|apply IH]. destruct (abs_diff_eq _ _); [apply IH|cbn; lia]. }
  specialize (H (first_number xs) xs). destruct (decide _); cbn [length]; lia.
Qed.
(** With points that are integers, the scores are the same if they are the same number *)
Theorem C85_points i j a b : (0 <= a <= 2 ^ 53)%Z -> (0 <= b <= 2 ^ 53)%Z -> same_score (i, f64_of_Z a) (Extracted j (Some (f64_of_Z b))) <-> a = b.
Proof.
  intros Ha Hb. unfold same_score. cbn [x_score snd]. destruct (f64_of_Z_R a) as [Fa Ra]; [lia|]. pose proof (abs_diff_eq_Z _ a b Fa Ra Ha Hb) as H. split.
  - intros Hs. apply H. by apply Hs.
  - intros Hab s [= <-]. by apply H.
Qed.
(** A statement of a task whose subtasks are 0, 1, ... is silent only if it counts from 0 or from 1 without holes *)
Theorem C85_numbering k sts es source xs : in_order sts es -> (forall i e, es !! i = Some e -> fst e = N.of_nat i) -> check_statement k (expected_subtasks sts) source = [] ->
  extract_subtasks source = Some xs -> exists base, (base = 0%N \/ base = 1%N) /\ map x_id xs = map (fun i => (N.of_nat i + base)%N) (seq 0 (length es)).
Proof.
  intros Ho Hi Hc Hx. pose proof (proj1 (C85_silent k sts es source Ho) Hc xs Hx) as [Hl Ha]. exists (counts_from xs). split; [destruct xs as [|x xs']; [by left|]; cbn; destruct (_ =? _)%N; [by right|by left]|].
  apply list_eq. intros i. rewrite !list_lookup_fmap. destruct (xs !! i) as [x|] eqn:E.
  - assert (i < length es) as Hlt by (rewrite <- Hl; by eapply lookup_lt_Some). rewrite lookup_seq_lt by done. cbn. destruct (lookup_lt_is_Some_2 es i Hlt) as [e He].
    destruct (Ha i e x He E) as [Hn _]. unfold same_number in Hn. by rewrite Hn, (Hi i e He).
  - rewrite lookup_seq_ge; [done|]. apply lookup_ge_None in E. lia.
Qed.
(** Only the booklets with one statement are checked *)
Theorem C85_hook sts booklets d : d ∈ statement_subtasks sts booklets <-> exists k b s, booklets !! k = Some b /\ bk_statements b = [s] /\ d ∈ check_statement k (expected_subtasks sts) (statement_tex s).
Proof.
  unfold statement_subtasks. rewrite elem_of_list_In, in_concat. split.
  - intros (l & Hl & Hd). apply elem_of_list_In in Hl, Hd. apply elem_of_lookup_imap in Hl as (k & b & -> & Hb). destruct (bk_statements b) as [|s [|? ?]] eqn:E; [by apply elem_of_nil in Hd| |by apply elem_of_nil in Hd]. by exists k, b, s.
  - intros (k & b & s & Hb & Es & Hd). exists (check_statement k (expected_subtasks sts) (statement_tex s)). split; [|by apply elem_of_list_In]. apply elem_of_list_In. apply elem_of_lookup_imap. exists k, b. by rewrite Es.
Qed.

(** ** Examples *)
Fixpoint closed_b (t : text) : bool :=
  match t with
  | [] => true
  | c :: t' => match strip_start (backslash :: chars "phantom{") t with
               | Some b => match snd (span not_brace_line b) with e :: _ => bool_decide (e = "}"%char) | [] => false end
               | None => true
               end && closed_b t'
  end.
Lemma closed_b_ok t : closed_b t = true -> phantoms_closed t.
Proof.
  induction t as [|c t IH]; intros H; [intros a b E; symmetry in E; by apply app_eq_nil in E as [_ E]|]. change (closed_b (c :: t)) with (match strip_start (backslash :: chars "phantom{") (c :: t) with
    | Some b => match snd (span not_brace_line b) with e :: _ => bool_decide (e = "}"%char) | [] => false end | None => true end && closed_b t) in H.
  apply andb_true_iff in H as [H1 H2]. intros a b E. destruct a as [|x a]; [|injection E as -> E; by apply (IH H2 a b)].
  change ([] ++ backslash :: chars "phantom{" ++ b) with ((backslash :: chars "phantom{") ++ b) in E. rewrite E, strip_start_app in H1. pose proof (span_spec not_brace_line b) as (Eb & Hf & _).
  destruct (span not_brace_line b) as [w r]. cbn [fst snd] in *. destruct r as [|e r]; [done|]. apply bool_decide_eq_true in H1 as ->. exists w, r. split; [done|]. rewrite Forall_forall in Hf.
  split; intros Hin; apply Hf in Hin; by vm_compute in Hin.
Qed.
Definition tex_of (ls : list string) : text := unlines [newline] (map (fun s => map (fun c => if decide (c = "@"%char) then backslash else c) (chars s)) ls).
(** [@] is a backslash *)
Definition ex_oii : text := tex_of ["@section"; "@item @textbf{@makebox[2cm][l]{Subtask 1} [@phantom{1}5 punti]}: $L@leq 10$."; "@item {Subtask 2}[95 punti]"].
Definition ex_new : text := tex_of ["@begin{itemize}"; "@item @subtask $N@le 10$. @subtask"; "% @subtask"; "@end{itemize}"].
Definition ex_ois : text := tex_of ["@OISubtask{10}{1}{$N@le 10$.}"; "text"; "@IIOTsubtask{90}{1}{$N}"].
Definition ex_sts : list (N * f64) := [(1%N, f64_of_Z 95); (0%N, f64_of_Z 5)].
Example C85_ex_oii : phantoms_closed ex_oii /\ extract_subtasks ex_oii = Some [Extracted 1 (Some (f64_of_Z 5)); Extracted 2 (Some (f64_of_Z 95))].
Proof. split; [apply closed_b_ok; vm_compute; reflexivity|vm_compute; reflexivity]. Qed.
Example C85_ex_silent : check_statement 0 (expected_subtasks ex_sts) ex_oii = [].
Proof. vm_compute. reflexivity. Qed.
Example C85_ex_order : in_order ex_sts [(0%N, f64_of_Z 5); (1%N, f64_of_Z 95)].
Proof. split; [apply Permutation_swap|]. repeat constructor; cbn; lia. Qed.
(** A line counts once, and a comment counts *)
Example C85_ex_new : phantoms_closed ex_new /\ extract_subtasks ex_new = Some [Extracted 0 None; Extracted 1 None] /\ check_statement 0 (expected_subtasks ex_sts) ex_new = [].
Proof. split; [apply closed_b_ok; vm_compute; reflexivity|split; vm_compute; reflexivity]. Qed.
Example C85_ex_ois : phantoms_closed ex_ois /\ extract_subtasks ex_ois = Some [Extracted 0 (Some (f64_of_Z 10)); Extracted 1 (Some (f64_of_Z 90))]
  /\ check_statement 3 (expected_subtasks ex_sts) ex_ois = [SScore 3 0 (f64_of_Z 5) (f64_of_Z 10)].
Proof. split; [apply closed_b_ok; vm_compute; reflexivity|split; vm_compute; reflexivity]. Qed.
Example C85_ex_wrong : check_statement 0 (expected_subtasks ((2%N, f64_of_Z 0) :: ex_sts)) (tex_of ["{Subtask 1} [5]"; "{Subtask 3} [95]"]) = [SNumber 0 2 3; SCount 0 3 2].
Proof. vm_compute. reflexivity. Qed.
(** With a [\phantom] of more than a line, a subtask may be in no line *)
Example C85_ex_phantom : check_subtasks_oii (tex_of ["{Subtask 0} [@phantom{1"; "}7]"]) = Some [Extracted 0 (Some (f64_of_Z 7))] /\ closed_b (tex_of ["{Subtask 0} [@phantom{1"; "}7]"]) = false.
Proof. split; vm_compute; reflexivity. Qed.
Print Assumptions C85_new.
Print Assumptions C85_ois.
Print Assumptions C85_oii.
Print Assumptions C85_extract.
Print Assumptions C85_ois_unique.
Print Assumptions C85_oii_unique.
Print Assumptions C85_silent.
Print Assumptions C85_reported.
Print Assumptions C85_at_most_two.
Print Assumptions C85_points.
Print Assumptions C85_numbering.
Print Assumptions C85_hook.
