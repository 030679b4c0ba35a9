(** * CasesProofs: the parser of the lines of gen/cases.gen accepts exactly the grammar *)
From Verif Require Import CasesSpec FormatProofs.

Lemma Blanks1_inv b : Blanks1 b -> Blanks b /\ b <> [].
Proof. intros [? ?]; done. Qed.
Lemma phrase_stops d t : Phrase d -> stops is_blank (d ++ t).
Proof. intros [[Hn _] Hh]. destruct d as [|x d]; [done|]. cbn. apply not_true_iff_false. rewrite is_blank_spec. by apply Hh. Qed.
Lemma phrase_span d c : Phrase d -> Tail c -> span1 not_hash (d ++ c) = Some (d, c).
Proof. intros [Hr _] Hc. apply Rest_bool in Hr as [Hn Hr]. apply span1_app; [done..|]. destruct Hc as [->|[r ->]]; done. Qed.
Lemma stops_head_blank d c : stops is_blank (d ++ c) -> d <> [] -> forall x, head d = Some x -> ~ Blank x.
Proof. intros H Hn x Hx. destruct d as [|y d]; [done|]. cbn in *. injection Hx as ->. rewrite <- is_blank_spec. congruence. Qed.
Lemma span_phrase t d c : stops is_blank t -> span1 not_hash t = Some (d, c) -> t = d ++ c /\ Phrase d.
Proof.
  intros Ht H. apply span1_inv in H as (-> & Hn & Hd & _). split; [done|]. split; [by apply Rest_bool|]. intros x. by apply (stops_head_blank d c).
Qed.
Lemma tail_blanks c : Tail c -> blanks c = c.
Proof. by intros [->|[r ->]]. Qed.
Lemma words_text_app n ws u b c : Words ws u -> Blanks b -> Tail c -> length ws <= n -> words_text n (u ++ b ++ c) = (u, b ++ c).
Proof.
  intros Hw Hb Hc. revert n. induction Hw as [|b0 w ws u Hb0 Hne Hw Hws IH]; intros n Hn.
  - destruct n as [|n]; [done|]. cbn [words_text app]. destruct (span1 is_blank (b ++ c)) as [[b' t']|] eqn:E; [|done].
    apply span1_inv in E as (E & _ & Hb' & Hs). assert (t' = c) as ->.
    { assert (blanks (b ++ c) = c) as H1 by (apply blanks_app; [done|by apply tail_stops]). rewrite E in H1. rewrite blanks_app in H1; [done|by apply Blanks_bool|done]. }
    rewrite (proj2 (span1_None is_word c)); [done|by apply tail_stops].
  - destruct n as [|n]; [cbn in Hn; lia|]. cbn [words_text]. rewrite <- !app_assoc.
    rewrite span1_app; [|done|by apply Blanks_bool|by apply blank_stops_word].
    rewrite span1_app; [|by apply Word_bool in Hw as []..|apply (Words_stops ws u); [done|by apply word_stops_end]].
    rewrite IH by (cbn in Hn; lia). done.
Qed.
Lemma words_text_inv n t v r : words_text n t = (v, r) -> exists ws, Words ws v /\ t = v ++ r.
Proof.
  revert t v r. induction n as [|n IH]; intros t v r; cbn [words_text]; [intros [= <- <-]; exists []; split; [constructor|done]|].
  destruct (span1 is_blank t) as [[b t']|] eqn:E; [|intros [= <- <-]; exists []; split; [constructor|done]].
  destruct (span1 is_word t') as [[w r']|] eqn:E'; [|intros [= <- <-]; exists []; split; [constructor|done]].
  destruct (words_text n r') as [ws r''] eqn:E''. intros [= <- <-]. apply IH in E'' as (l & Hl & ->). apply span1_inv in E as (-> & Hn & Hb & _), E' as (-> & Hn' & Hw & _).
  exists (w :: l). split; [|by rewrite <- !app_assoc]. constructor; [by apply Blanks_bool|done|by apply Word_bool|done].
Qed.

(** ** GEN and VAL *)
Lemma manager_none k make b w b' c : Blanks1 b -> Word w -> Blanks b' -> Tail c -> manager_rule k make ((k ++ b ++ w ++ b') ++ c) = Some (make w None, c).
Proof.
  intros [Hb0 Hb]%Blanks1_inv Hw Hb' Hc. unfold manager_rule. rewrite <- !app_assoc, literal_app. cbn [mbind option_bind].
  rewrite blanks1_app; [|done|done|by apply blank_stops_word]. cbn [mbind option_bind].
  rewrite span1_app; [|by apply Word_bool in Hw as []..|by apply word_stops_end]. cbn [mbind option_bind].
  assert ((t' ← blanks1 (b' ++ c); span1 is_word t') = None) as ->.
  { destruct b' as [|x b'].
    - cbn [app]. rewrite (proj2 (blanks1_None c)); [done|by apply tail_stops].
    - rewrite blanks1_app; [|done|done|by apply tail_stops]. cbn [mbind option_bind]. apply span1_None. by apply tail_stops. }
  rewrite blanks_app; [done|done|by apply tail_stops].
Qed.
Lemma manager_some k make b w b2 p ws u b' c : Blanks1 b -> Word w -> Blanks1 b2 -> Word p -> Words ws u -> Blanks b' -> Tail c ->
  manager_rule k make ((k ++ b ++ w ++ b2 ++ p ++ u ++ b') ++ c) = Some (make w (Some (p, u)), c).
Proof.
  intros [Hb0 Hb]%Blanks1_inv Hw [Hb2 Hb2n]%Blanks1_inv Hp Hws Hb' Hc. unfold manager_rule. rewrite <- !app_assoc, literal_app. cbn [mbind option_bind].
  rewrite blanks1_app; [|done|done|by apply blank_stops_word]. cbn [mbind option_bind].
  rewrite span1_app; [|by apply Word_bool in Hw as []..|by apply word_stops_blank]. cbn [mbind option_bind].
  rewrite blanks1_app; [|done|done|by apply blank_stops_word]. cbn [mbind option_bind].
  rewrite span1_app; [|by apply Word_bool in Hp as []..|apply (Words_stops ws u); [done|by apply word_stops_end]].
  rewrite (words_text_app _ ws u b' c); [|done..|].
  - rewrite blanks_app; [done|done|by apply tail_stops].
  - rewrite app_length. pose proof (Words_length _ _ Hws). lia.
Qed.
Lemma manager_inv k make t l c : manager_rule k make t = Some (l, c) -> Tail c ->
  (exists b w b', t = (k ++ b ++ w ++ b') ++ c /\ Blanks1 b /\ Word w /\ Blanks b' /\ l = make w None) \/
  (exists b w b2 p ws u b', t = (k ++ b ++ w ++ b2 ++ p ++ u ++ b') ++ c /\ Blanks1 b /\ Word w /\ Blanks1 b2 /\ Word p /\ Words ws u /\ Blanks b' /\ l = make w (Some (p, u))).
Proof.
  intros H Hc. unfold manager_rule in H. apply bind_Some' in H as (t1 & Hl & H). apply literal_inv in Hl as ->. apply bind_Some' in H as (t2 & Hb & H).
  apply blanks1_inv in Hb as (b & Hb & Hbn & -> & _). apply bind_Some' in H as ([w t3] & Hw & H). apply span1_inv in Hw as (-> & Hn & Hw & _).
  destruct (t' ← blanks1 t3; span1 is_word t') as [[p r]|] eqn:E.
  - right. apply bind_Some' in E as (t4 & Hb2 & Hp). apply blanks1_inv in Hb2 as (b2 & Hb2 & Hb2n & -> & _). apply span1_inv in Hp as (-> & Hpn & Hp & _).
    destruct (words_text (length r) r) as [u r'] eqn:Eu. apply words_text_inv in Eu as (ws & Hws & ->). injection H as <- H. destruct (blanks_end _ _ H Hc) as (b' & Hb' & ->).
    exists b, w, b2, p, ws, u, b'. split_and!; [by rewrite <- !app_assoc|done|by apply Word_bool|done|by apply Word_bool|done|done|done].
  - left. injection H as <- H. destruct (blanks_end _ _ H Hc) as (b' & Hb' & ->). exists b, w, b'. split_and!; [by rewrite <- !app_assoc|done|by apply Word_bool|done|done].
Qed.

(** ** CONSTRAINT *)
Lemma number_app n r : Number n -> stops is_digit r -> number_rule (n ++ r) = Some (n, r).
Proof.
  intros [Hd|(s & d & Hs & Hd & ->)] Hr; unfold number_rule.
  - apply Digits_bool in Hd as [Hn Hd]. destruct n as [|x n]; [done|]. cbn [app]. rewrite decide_False.
    + change (x :: n ++ r) with ((x :: n) ++ r). rewrite span1_app by done. done.
    + inversion Hd as [|?? Hx]; subst. apply is_digit_spec in Hx. lia.
  - apply Digits_bool in Hd as [Hn Hd]. cbn [app]. rewrite decide_True by done. rewrite span1_app by done. done.
Qed.
Lemma number_inv t n r : number_rule t = Some (n, r) -> t = n ++ r /\ Number n /\ stops is_digit r.
Proof.
  unfold number_rule. destruct t as [|x t]; [done|]. destruct (decide (x = 45%N \/ x = 43%N)) as [Hx|Hx].
  - intros H. apply bind_Some' in H as ([d r'] & Hs & H). injection H as <- <-. apply span1_inv in Hs as (-> & Hn & Hd & Hr). split_and!; [done| |done]. right. exists x, d. split_and!; [done|by apply Digits_bool|done].
  - intros H. apply bind_Some' in H as ([d r'] & Hs & H). injection H as <- <-. apply span1_inv in Hs as (-> & Hn & Hd & Hr). split_and!; [done| |done]. left. by apply Digits_bool.
Qed.
Definition after_operand (i : item) (r : text) : Prop := match i with INumber _ => stops is_digit r | IVariable _ => stops is_word r | IOperator _ => True end.
Lemma operand_app i t r : Operand i t -> after_operand i r -> operand_rule (t ++ r) = Some (i, r).
Proof.
  intros [n Hn|w Hw] Hr; unfold operand_rule.
  - by rewrite number_app.
  - cbn [app]. assert (number_rule (dollar :: w ++ r) = None) as -> by done. cbn [literal]. rewrite decide_True by done. cbn [mbind option_bind].
    rewrite span1_app; [|by apply Word_bool in Hw as []..|done]. done.
Qed.
Lemma operand_inv t i r : operand_rule t = Some (i, r) -> exists u, t = u ++ r /\ Operand i u /\ after_operand i r.
Proof.
  unfold operand_rule. destruct (number_rule t) as [[n r']|] eqn:E.
  - intros [= <- <-]. apply number_inv in E as (-> & Hn & Hr). exists n. split_and!; [done|by constructor|done].
  - intros H. apply bind_Some' in H as (t' & Hl & H). apply literal_inv in Hl as ->. apply bind_Some' in H as ([w r'] & Hw & H). injection H as <- <-.
    apply span1_inv in Hw as (-> & Hn & Hw & Hr). exists (dollar :: w). split_and!; [done|constructor; by apply Word_bool|done].
Qed.
Definition operand_start (r : text) : Prop := match r with [] => False | x :: _ => is_digit x = true \/ x = 45%N \/ x = 43%N \/ x = dollar end.
Lemma operand_starts i t r : Operand i t -> operand_start (t ++ r).
Proof.
  intros [n [[Hn Hd]|(s & d & Hs & _ & ->)]|w Hw]; cbn.
  - destruct n as [|x n]; [done|]. inversion Hd; subst. left. by apply is_digit_spec.
  - tauto.
  - tauto.
Qed.
Lemma operand_start_blank r : operand_start r -> stops is_blank r.
Proof. destruct r as [|x r]; [done|]. cbn. intros H. apply not_true_iff_false. rewrite is_blank_spec. unfold Blank, dollar in *. rewrite is_digit_spec in H. lia. Qed.
Lemma operator_app o b r : Blanks b -> operand_start r -> operator_rule (show_operator o ++ b ++ r) = Some (o, b ++ r).
Proof.
  intros Hb Hr. assert (forall x t, x <> 61%N -> literal (chars "=") (x :: t) = None) as Hx.
  { intros x t Hx. change (chars "=") with [61%N]. cbn [literal]. by rewrite decide_False by congruence. }
  assert (literal (chars "=") (b ++ r) = None) as He.
  { destruct b as [|x b].
    - destruct r as [|x r]; [done|]. apply Hx. intros ->. cbn in Hr. unfold dollar in Hr. intuition congruence.
    - inversion Hb as [|?? Hxb]; subst. apply Hx. unfold Blank in Hxb. intros ->. intuition congruence. }
  assert (forall x, literal (x :: chars "=") (x :: b ++ r) = None) as He'. { intros x. cbn [literal]. rewrite decide_True by done. exact He. }
  destruct o; unfold operator_rule.
  - rewrite (He' 60%N : literal (chars "<=") (show_operator Less ++ b ++ r) = None). rewrite (literal_app (chars "<") (b ++ r) : literal (chars "<") (show_operator Less ++ b ++ r) = Some (b ++ r)). done.
  - rewrite (literal_app (chars "<=") (b ++ r) : literal (chars "<=") (show_operator LessEqual ++ b ++ r) = Some (b ++ r)). done.
  - change (literal (chars "<=") (show_operator Greater ++ b ++ r)) with (@None text). change (literal (chars "<") (show_operator Greater ++ b ++ r)) with (@None text).
    rewrite (He' 62%N : literal (chars ">=") (show_operator Greater ++ b ++ r) = None). rewrite (literal_app (chars ">") (b ++ r) : literal (chars ">") (show_operator Greater ++ b ++ r) = Some (b ++ r)). done.
  - change (literal (chars "<=") (show_operator GreaterEqual ++ b ++ r)) with (@None text). change (literal (chars "<") (show_operator GreaterEqual ++ b ++ r)) with (@None text).
    rewrite (literal_app (chars ">=") (b ++ r) : literal (chars ">=") (show_operator GreaterEqual ++ b ++ r) = Some (b ++ r)). done.
  - change (literal (chars "<=") (show_operator Equal ++ b ++ r)) with (@None text). change (literal (chars "<") (show_operator Equal ++ b ++ r)) with (@None text).
    change (literal (chars ">=") (show_operator Equal ++ b ++ r)) with (@None text). change (literal (chars ">") (show_operator Equal ++ b ++ r)) with (@None text).
    rewrite (literal_app (chars "=") (b ++ r) : literal (chars "=") (show_operator Equal ++ b ++ r) = Some (b ++ r)). done.
Qed.
Lemma operator_inv t o r : operator_rule t = Some (o, r) -> t = show_operator o ++ r.
Proof.
  unfold operator_rule.
  destruct (literal (chars "<=") t) eqn:E1; [intros [= <- <-]; by apply literal_inv|].
  destruct (literal (chars "<") t) eqn:E2; [intros [= <- <-]; by apply literal_inv|].
  destruct (literal (chars ">=") t) eqn:E3; [intros [= <- <-]; by apply literal_inv|].
  destruct (literal (chars ">") t) eqn:E4; [intros [= <- <-]; by apply literal_inv|].
  destruct (literal (chars "=") t) eqn:E5; [intros [= <- <-]; by apply literal_inv|]. done.
Qed.
Lemma show_operator_stops f o t : f 60%N = false -> f 61%N = false -> f 62%N = false -> stops f (show_operator o ++ t).
Proof. by destruct o. Qed.
Lemma show_operator_length o : 0 < length (show_operator o).
Proof. destruct o; cbn; lia. Qed.
(** What follows an operand *)
Inductive LinksText : item -> list item -> text -> Prop :=
  | LinksText_nil i : LinksText i [] []
  | LinksText_cons i b o b' j t is u : Blanks b -> (is_variable i -> b <> []) -> Blanks b' -> Operand j t -> LinksText j is u ->
      LinksText i (IOperator o :: j :: is) (b ++ show_operator o ++ b' ++ t ++ u).
Lemma comparison_links is u : Comparison is u <-> exists i rest t v, is = i :: rest /\ u = t ++ v /\ Operand i t /\ LinksText i rest v.
Proof.
  split.
  - induction 1 as [i t Ht|i t b o b' is u Ht Hb Hv Hb' Hc IH].
    + exists i, [], t, []. split_and!; [done|by rewrite app_nil_r|done|constructor].
    + destruct IH as (j & rest & t' & v & -> & -> & Ho & Hl). exists i, (IOperator o :: j :: rest), t, (b ++ show_operator o ++ b' ++ t' ++ v). split_and!; [done..|]. by constructor.
  - intros (i & rest & t & v & -> & -> & Ho & Hl). revert t Ho. induction Hl as [i|i b o b' j tj is u Hb Hv Hb' Hj Hl IH]; intros t Ho.
    + rewrite app_nil_r. by constructor.
    + constructor; [done..|]. by apply IH.
Qed.
Lemma links_after i is u b c : LinksText i is u -> Blanks b -> Tail c -> after_operand i (u ++ b ++ c).
Proof.
  intros Hl Hb Hc. destruct Hl as [i|i b1 o b1' j tj is u Hb1 Hv Hb1' Hj Hl].
  - cbn [app]. destruct i; [|by apply word_stops_end|done]. destruct b as [|x b]; [by apply tail_stops|]. inversion Hb as [|?? Hx]; subst. cbn. apply not_true_iff_false. rewrite is_digit_spec. unfold Blank in Hx. lia.
  - rewrite <- !app_assoc. destruct i as [n|v|o'].
    + destruct b1 as [|x b1]; [by apply show_operator_stops|]. inversion Hb1 as [|?? Hx]; subst. cbn. apply not_true_iff_false. rewrite is_digit_spec. unfold Blank in Hx. lia.
    + apply word_stops_blank; [done|]. apply Hv. by eexists.
    + done.
Qed.
(** [links] gives what there is, and stops *)
Lemma link_app b o b' j t r : Blanks b -> Blanks b' -> Operand j t -> after_operand j r -> link_rule (b ++ show_operator o ++ b' ++ t ++ r) = Some ([IOperator o; j], r).
Proof.
  intros Hb Hb' Hj Hr. unfold link_rule. rewrite blanks_app; [|done|by apply show_operator_stops]. rewrite operator_app; [|done|by eapply operand_starts]. cbn [mbind option_bind].
  rewrite blanks_app; [|done|by eapply operand_start_blank, operand_starts]. rewrite (operand_app j) by done. done.
Qed.
Lemma link_end b c : Blanks b -> Tail c -> link_rule (b ++ c) = None.
Proof. intros Hb Hc. unfold link_rule. rewrite blanks_app; [|done|by apply tail_stops]. by destruct Hc as [->|[r ->]]. Qed.
Lemma links_app n i is u b c : LinksText i is u -> Blanks b -> Tail c -> length u <= n -> links n (u ++ b ++ c) = (is, b ++ c).
Proof.
  intros Hl Hb Hc. revert n. induction Hl as [i|i b1 o b1' j tj is u Hb1 Hv Hb1' Hj Hl IH]; intros n Hn.
  - destruct n as [|n]; [done|]. cbn [links app]. by rewrite link_end.
  - rewrite !app_length in Hn. pose proof (show_operator_length o). destruct n as [|n]; [lia|]. cbn [links]. rewrite <- !app_assoc.
    rewrite (link_app _ _ _ j); [|done..|by apply (links_after j is u b c)]. rewrite IH by lia. done.
Qed.
Lemma link_inv i t is r : after_operand i t -> link_rule t = Some (is, r) -> exists b o b' j tj, is = [IOperator o; j] /\ t = b ++ show_operator o ++ b' ++ tj ++ r /\ Blanks b /\ (is_variable i -> b <> []) /\ Blanks b' /\ Operand j tj /\ after_operand j r.
Proof.
  intros Hi H. unfold link_rule in H. apply bind_Some' in H as ([o r1] & Ho & H). apply bind_Some' in H as ([j r2] & Hj & H). injection H as <- <-.
  apply operator_inv in Ho. apply operand_inv in Hj as (tj & Htj & Hj & Hr). destruct (blanks_inv t) as (b & Hb & Ht & _). destruct (blanks_inv r1) as (b' & Hb' & Hr1 & _).
  exists b, o, b', j, tj. split_and!; [done| |done| |done..].
  - by rewrite Ht, Ho, Hr1, Htj.
  - intros [w ->] ->. cbn in Hi, Ht. rewrite Ht, Ho in Hi. by destruct o.
Qed.
Lemma links_inv n i t is r : after_operand i t -> links n t = (is, r) -> exists u, t = u ++ r /\ LinksText i is u.
Proof.
  revert i t is r. induction n as [|n IH]; intros i t is r Hi; cbn [links]; [intros [= <- <-]; exists []; split; [done|constructor]|].
  destruct (link_rule t) as [[l r1]|] eqn:E; [|intros [= <- <-]; exists []; split; [done|constructor]].
  destruct (links n r1) as [is' r2] eqn:E2. intros [= <- <-]. apply (link_inv i) in E as (b & o & b' & j & tj & -> & -> & Hb & Hv & Hb' & Hj & Hr); [|done].
  apply (IH j) in E2 as (u & -> & Hu); [|done]. exists (b ++ show_operator o ++ b' ++ tj ++ u). split; [by rewrite <- !app_assoc|]. cbn [app]. by constructor.
Qed.
Lemma constraint_app b is u b' c : Blanks1 b -> Comparison is u -> 1 < length is -> Blanks b' -> Tail c -> constraint_rule ((chars "CONSTRAINT" ++ b ++ u ++ b') ++ c) = Some (CConstraint is, c).
Proof.
  intros [Hb0 Hb]%Blanks1_inv Hu Hlen Hb' Hc. apply comparison_links in Hu as (i & rest & t & v & -> & -> & Hi & Hl). unfold constraint_rule. rewrite <- !app_assoc, literal_app. cbn [mbind option_bind].
  rewrite blanks1_app; [|done|done|by eapply operand_start_blank, operand_starts]. cbn [mbind option_bind].
  rewrite (operand_app i); [|done|by apply (links_after i rest v)]. cbn [mbind option_bind].
  destruct Hl as [i|i b1 o b1' j tj is u Hb1 Hv Hb1' Hj Hl]; [cbn in Hlen; lia|]. rewrite <- !app_assoc.
  rewrite (link_app _ _ _ j); [|done..|by apply (links_after j is u)]. cbn [mbind option_bind].
  rewrite (links_app _ j is u b' c); [|done..|rewrite app_length; lia]. cbn [app]. rewrite blanks_app; [done|done|by apply tail_stops].
Qed.
Lemma constraint_inv t l c : constraint_rule t = Some (l, c) -> Tail c -> exists b is u b', t = (chars "CONSTRAINT" ++ b ++ u ++ b') ++ c /\ Blanks1 b /\ Comparison is u /\ 1 < length is /\ Blanks b' /\ l = CConstraint is.
Proof.
  intros H Hc. unfold constraint_rule in H. apply bind_Some' in H as (t1 & Hl & H). apply literal_inv in Hl as ->. apply bind_Some' in H as (t2 & Hb & H).
  apply blanks1_inv in Hb as (b & Hb & Hbn & -> & _). apply bind_Some' in H as ([i t3] & Hi & H). apply operand_inv in Hi as (ti & -> & Hi & Ha).
  apply bind_Some' in H as ([is t4] & Hk & H). apply (link_inv i) in Hk as (b1 & o & b1' & j & tj & -> & -> & Hb1 & Hv & Hb1' & Hj & Hr); [|done].
  destruct (links (length t4) t4) as [is' t5] eqn:E. apply (links_inv _ j) in E as (u & -> & Hu); [|done]. injection H as <- H. destruct (blanks_end _ _ H Hc) as (b' & Hb' & ->).
  exists b, (i :: IOperator o :: j :: is'), (ti ++ b1 ++ show_operator o ++ b1' ++ tj ++ u), b'. split_and!; [by rewrite <- !app_assoc|done| |cbn; lia|done|done].
  apply comparison_links. exists i, (IOperator o :: j :: is'), ti, (b1 ++ show_operator o ++ b1' ++ tj ++ u). split_and!; [done..|]. by constructor.
Qed.

(** ** SUBTASK *)
Definition point : N := 46%N.
Lemma decimal_app n r : Decimal n -> stops is_digit r -> head r <> Some point -> float_rule (n ++ r) = Some (n, r).
Proof.
  intros [Hd|(d & m & Hd & Hm & ->)] Hr Hp; unfold float_rule.
  - apply Digits_bool in Hd as [Hn Hd]. rewrite span1_app by done. cbn [mbind option_bind].
    destruct r as [|x r]; [done|]. change (chars ".") with [46%N]. cbn [literal]. rewrite decide_False; [done|]. intros E. apply Hp. by rewrite <- E.
  - apply Digits_bool in Hd as [Hn Hd], Hm as [Hmn Hm]. rewrite <- app_assoc. cbn [app]. rewrite span1_app; [|done|done|done]. cbn [mbind option_bind].
    rewrite (literal_app (chars ".") (m ++ r) : literal (chars ".") (46%N :: m ++ r) = Some (m ++ r)). cbn [mbind option_bind]. rewrite span1_app by done. done.
Qed.
Lemma decimal_inv t n r : float_rule t = Some (n, r) -> t = n ++ r /\ Decimal n.
Proof.
  unfold float_rule. intros H. apply bind_Some' in H as ([d t1] & Hd & H). apply span1_inv in Hd as (-> & Hn & Hd & _).
  destruct (r' ← literal (chars ".") t1; span1 is_digit r') as [[m r']|] eqn:E.
  - apply bind_Some' in E as (t2 & Hl & Hm). apply literal_inv in Hl as ->. apply span1_inv in Hm as (-> & Hmn & Hm & _). injection H as <- <-.
    split; [by rewrite <- !app_assoc|]. right. exists d, m. split_and!; [by apply Digits_bool|by apply Digits_bool|done].
  - injection H as <- <-. split; [done|]. left. by apply Digits_bool.
Qed.
Lemma decimal_starts n r : Decimal n -> stops is_blank (n ++ r).
Proof.
  intros H. assert (exists x t, n = x :: t /\ is_digit x = true) as (x & t & -> & Hx).
  { destruct H as [[Hn Hd]|(d & m & [Hn Hd] & _ & ->)].
    - destruct n as [|x n]; [done|]. inversion Hd; subst. exists x, n. split; [done|]. by apply is_digit_spec.
    - destruct d as [|x d]; [done|]. inversion Hd; subst. eexists x, _. split; [done|]. by apply is_digit_spec. }
  cbn. apply word_not_blank. by apply digit_is_word.
Qed.
Lemma blank_tail_facts b c : Blanks b -> Tail c -> stops is_digit (b ++ c) /\ head (b ++ c) <> Some point.
Proof.
  intros Hb Hc. destruct b as [|x b].
  - destruct Hc as [->|[r ->]]; done.
  - inversion Hb as [|?? Hx]; subst. cbn [app]. split; [|destruct Hx as [-> | ->]; done]. destruct Hx as [-> | ->]; done.
Qed.
Lemma blank1_facts b t : Blanks1 b -> stops is_digit (b ++ t) /\ head (b ++ t) <> Some point.
Proof. intros [Hn Hb]. destruct b as [|x b]; [done|]. inversion Hb as [|?? Hx]; subst. cbn [app]. destruct Hx as [-> | ->]; done. Qed.
Lemma subtask_none b n b' c : Blanks1 b -> Decimal n -> Blanks b' -> Tail c -> subtask_rule ((chars "SUBTASK" ++ b ++ n ++ b') ++ c) = Some (CSubtask n None, c).
Proof.
  intros [Hb0 Hb]%Blanks1_inv Hn Hb' Hc. unfold subtask_rule. rewrite <- !app_assoc, literal_app. cbn [mbind option_bind].
  rewrite blanks1_app; [|done|done|by apply decimal_starts]. cbn [mbind option_bind].
  rewrite decimal_app; [|done|by apply blank_tail_facts..]. cbn [mbind option_bind].
  assert ((t' ← blanks1 (b' ++ c); span1 not_hash t') = None) as ->.
  { assert (stops not_hash c) as Hs by (by destruct Hc as [->|[r ->]]). destruct b' as [|x b'].
    - cbn [app]. rewrite (proj2 (blanks1_None c)); [done|by apply tail_stops].
    - rewrite blanks1_app; [|done|done|by apply tail_stops]. cbn [mbind option_bind]. by apply span1_None. }
  rewrite blanks_app; [done|done|by apply tail_stops].
Qed.
Lemma subtask_some b n b2 d c : Blanks1 b -> Decimal n -> Blanks1 b2 -> Phrase d -> Tail c -> subtask_rule ((chars "SUBTASK" ++ b ++ n ++ b2 ++ d) ++ c) = Some (CSubtask n (Some d), c).
Proof.
  intros [Hb0 Hb]%Blanks1_inv Hn Hb2 Hd Hc. unfold subtask_rule. rewrite <- !app_assoc, literal_app. cbn [mbind option_bind].
  rewrite blanks1_app; [|done|done|by apply decimal_starts]. cbn [mbind option_bind].
  rewrite decimal_app; [|done|by apply blank1_facts..]. cbn [mbind option_bind]. destruct (Blanks1_inv _ Hb2) as [Hb2' Hb2n].
  rewrite blanks1_app; [|done|done|by apply phrase_stops]. cbn [mbind option_bind]. rewrite phrase_span by done.
  by rewrite tail_blanks.
Qed.
Lemma not_hash_stop t a b : span1 not_hash t = Some (a, b) -> Tail b.
Proof. intros H. apply span1_inv in H as (_ & _ & _ & Hs). destruct b as [|x b]; [by left|]. right. exists b. cbn in Hs. unfold not_hash in Hs. apply negb_false_iff, N.eqb_eq in Hs. by subst. Qed.
Lemma subtask_inv t l c : subtask_rule t = Some (l, c) -> Tail c ->
  (exists b n b', t = (chars "SUBTASK" ++ b ++ n ++ b') ++ c /\ Blanks1 b /\ Decimal n /\ Blanks b' /\ l = CSubtask n None) \/
  (exists b n b2 d, t = (chars "SUBTASK" ++ b ++ n ++ b2 ++ d) ++ c /\ Blanks1 b /\ Decimal n /\ Blanks1 b2 /\ Phrase d /\ l = CSubtask n (Some d)).
Proof.
  intros H Hc. unfold subtask_rule in H. apply bind_Some' in H as (t1 & Hl & H). apply literal_inv in Hl as ->. apply bind_Some' in H as (t2 & Hb & H).
  apply blanks1_inv in Hb as (b & Hb & Hbn & -> & _). apply bind_Some' in H as ([n t3] & Hn & H). apply decimal_inv in Hn as (-> & Hn).
  destruct (t' ← blanks1 t3; span1 not_hash t') as [[d r]|] eqn:E.
  - right. apply bind_Some' in E as (t4 & Hb2 & Hd). apply blanks1_inv in Hb2 as (b2 & Hb2 & Hb2n & -> & Hs). pose proof (not_hash_stop _ _ _ Hd) as Ht. apply span_phrase in Hd as (-> & Hd); [|done].
    injection H as <- H. rewrite tail_blanks in H by done. subst r. exists b, n, b2, d. split_and!; [by rewrite <- !app_assoc|done..].
  - left. injection H as <- H. destruct (blanks_end _ _ H Hc) as (b' & Hb' & ->). exists b, n, b'. split_and!; [by rewrite <- !app_assoc|done..].
Qed.

(** ** The other commands *)
Lemma stdep_app ws u b' c : Words ws u -> Blanks b' -> Tail c -> stdep_rule ((chars "STDEP" ++ u ++ b') ++ c) = Some (CDeps ws, c).
Proof.
  intros Hws Hb' Hc. unfold stdep_rule. rewrite <- !app_assoc, literal_app. cbn [mbind option_bind]. rewrite (more_words_app _ ws u b' c); [|done..|].
  - rewrite blanks_app; [done|done|by apply tail_stops].
  - rewrite app_length. pose proof (Words_length _ _ Hws). lia.
Qed.
Lemma copy_app b p c : Blanks1 b -> Phrase p -> Tail c -> copy_rule ((chars "COPY" ++ b ++ p) ++ c) = Some (CCopy p, c).
Proof.
  intros [Hb0 Hb]%Blanks1_inv Hp Hc. unfold copy_rule. rewrite <- !app_assoc, literal_app. cbn [mbind option_bind].
  rewrite blanks1_app; [|done|done|by apply phrase_stops]. cbn [mbind option_bind]. rewrite phrase_span by done. cbn [mbind option_bind].
  by rewrite tail_blanks.
Qed.
Lemma run_rule_app b w b2 a c : Blanks1 b -> Word w -> Blanks1 b2 -> Phrase a -> Tail c -> run_rule ((chars "RUN" ++ b ++ w ++ b2 ++ a) ++ c) = Some (CRun w a, c).
Proof.
  intros [Hb0 Hb]%Blanks1_inv Hw [Hb2 Hb2n]%Blanks1_inv Ha Hc. unfold run_rule. rewrite <- !app_assoc, literal_app. cbn [mbind option_bind].
  rewrite blanks1_app; [|done|done|by apply blank_stops_word]. cbn [mbind option_bind].
  rewrite span1_app; [|by apply Word_bool in Hw as []..|by apply word_stops_blank]. cbn [mbind option_bind].
  rewrite blanks1_app; [|done|done|by apply phrase_stops]. cbn [mbind option_bind]. rewrite phrase_span by done. done.
Qed.
Lemma command_starts t l : CasesCommand t l -> forall r, stops is_blank (t ++ r).
Proof. intros []; intros r; done. Qed.
Lemma command_complete b t l c : Blanks b -> CasesCommand t l -> Tail c -> command_rule (colon :: b ++ t ++ c) = Some (l, c).
Proof.
  intros Hb Ht Hc. unfold command_rule. cbn [literal]. rewrite decide_True by done. cbn [mbind option_bind]. rewrite blanks_app; [|done|by apply (command_starts t l)].
  rewrite !first_of_cons. destruct Ht as [b1 w b'|b1 w b2 p ws u b'|b1 w b'|b1 w b2 p ws u b'|b1 is u b'|b1 n b'|b1 n b2 d|ws u b'|b1 p|b1 w b2 a].
  - by rewrite manager_none.
  - by rewrite (manager_some _ _ b1 w b2 p ws u b').
  - change (manager_rule (chars "GEN") CGen _) with (@None (cases_line * text)). by rewrite manager_none.
  - change (manager_rule (chars "GEN") CGen _) with (@None (cases_line * text)). by rewrite (manager_some _ _ b1 w b2 p ws u b').
  - change (manager_rule (chars "GEN") CGen _) with (@None (cases_line * text)). change (manager_rule (chars "VAL") CVal _) with (@None (cases_line * text)). rewrite (constraint_app b1 is u b') by done. done.
  - change (manager_rule (chars "GEN") CGen _) with (@None (cases_line * text)). change (manager_rule (chars "VAL") CVal _) with (@None (cases_line * text)).
    change (constraint_rule _) with (@None (cases_line * text)). by rewrite subtask_none.
  - change (manager_rule (chars "GEN") CGen _) with (@None (cases_line * text)). change (manager_rule (chars "VAL") CVal _) with (@None (cases_line * text)).
    change (constraint_rule _) with (@None (cases_line * text)). by rewrite subtask_some.
  - change (manager_rule (chars "GEN") CGen _) with (@None (cases_line * text)). change (manager_rule (chars "VAL") CVal _) with (@None (cases_line * text)).
    change (constraint_rule _) with (@None (cases_line * text)). change (subtask_rule _) with (@None (cases_line * text)). rewrite (stdep_app ws u) by done. done.
  - change (manager_rule (chars "GEN") CGen _) with (@None (cases_line * text)). change (manager_rule (chars "VAL") CVal _) with (@None (cases_line * text)).
    change (constraint_rule _) with (@None (cases_line * text)). change (subtask_rule _) with (@None (cases_line * text)). change (stdep_rule _) with (@None (cases_line * text)). by rewrite copy_app.
  - change (manager_rule (chars "GEN") CGen _) with (@None (cases_line * text)). change (manager_rule (chars "VAL") CVal _) with (@None (cases_line * text)).
    change (constraint_rule _) with (@None (cases_line * text)). change (subtask_rule _) with (@None (cases_line * text)). change (stdep_rule _) with (@None (cases_line * text)).
    change (copy_rule _) with (@None (cases_line * text)). by rewrite run_rule_app.
Qed.
Lemma command_sound t l c : command_rule t = Some (l, c) -> Tail c -> exists b u, t = colon :: b ++ u ++ c /\ Blanks b /\ CasesCommand u l.
Proof.
  intros H Hc. unfold command_rule in H. apply bind_Some' in H as (t1 & Hl & H). apply literal_inv in Hl as ->. destruct (blanks_inv t1) as (b & Hb & Ht & _).
  assert (exists u, blanks t1 = u ++ c /\ CasesCommand u l) as (u & Hu & Hcmd); [|exists b, u; split_and!; [cbn; by rewrite Ht, Hu|done..]].
  clear Ht Hb b. generalize dependent (blanks t1). intros t H. rewrite !first_of_cons in H.
  destruct (manager_rule (chars "GEN") CGen t) as [[? ?]|] eqn:E1.
  { injection H as -> ->. apply manager_inv in E1 as [(b & w & b' & -> & ? & ? & ? & ->)|(b & w & b2 & p & ws & u & b' & -> & ? & ? & ? & ? & ? & ? & ->)]; [..|done]; eexists; (split; [done|]); econstructor; done. }
  destruct (manager_rule (chars "VAL") CVal t) as [[? ?]|] eqn:E2.
  { injection H as -> ->. apply manager_inv in E2 as [(b & w & b' & -> & ? & ? & ? & ->)|(b & w & b2 & p & ws & u & b' & -> & ? & ? & ? & ? & ? & ? & ->)]; [..|done]; eexists; (split; [done|]); econstructor; done. }
  destruct (constraint_rule t) as [[? ?]|] eqn:E3.
  { injection H as -> ->. apply constraint_inv in E3 as (b & is & u & b' & -> & ? & ? & ? & ? & ->); [|done]. eexists. split; [done|]. by constructor. }
  destruct (subtask_rule t) as [[? ?]|] eqn:E4.
  { injection H as -> ->. apply subtask_inv in E4 as [(b & n & b' & -> & ? & ? & ? & ->)|(b & n & b2 & d & -> & ? & ? & ? & ? & ->)]; [..|done]; eexists; (split; [done|]); by constructor. }
  destruct (stdep_rule t) as [[? ?]|] eqn:E5.
  { injection H as -> ->. unfold stdep_rule in E5. apply bind_Some' in E5 as (t' & Hl & E5). apply literal_inv in Hl as ->. destruct (more_words (length t') t') as [ws r] eqn:Ew.
    injection E5 as <- E5. apply more_words_inv in Ew as (u & Hws & ->). destruct (blanks_end _ _ E5 Hc) as (b' & Hb' & ->). exists (chars "STDEP" ++ u ++ b'). split; [by rewrite <- !app_assoc|]. by constructor. }
  destruct (copy_rule t) as [[? ?]|] eqn:E6.
  { injection H as -> ->. unfold copy_rule in E6. apply bind_Some' in E6 as (t' & Hl & E6). apply literal_inv in Hl as ->. apply bind_Some' in E6 as (t2 & Hb & E6). apply blanks1_inv in Hb as (b & Hb & Hbn & -> & Hs).
    apply bind_Some' in E6 as ([p r] & Hp & E6). pose proof (not_hash_stop _ _ _ Hp) as Ht. apply span_phrase in Hp as (-> & Hp); [|done]. injection E6 as <- E6.
    rewrite tail_blanks in E6 by done. subst r. exists (chars "COPY" ++ b ++ p). split; [by rewrite <- !app_assoc|]. by constructor. }
  destruct (run_rule t) as [[? ?]|] eqn:E7; [|done].
  injection H as -> ->. unfold run_rule in E7. apply bind_Some' in E7 as (t' & Hl & E7). apply literal_inv in Hl as ->. apply bind_Some' in E7 as (t2 & Hb & E7). apply blanks1_inv in Hb as (b & Hb & Hbn & -> & _).
  apply bind_Some' in E7 as ([w t3] & Hw & E7). apply span1_inv in Hw as (-> & Hn & Hw & _). apply bind_Some' in E7 as (t4 & Hb2 & E7). apply blanks1_inv in Hb2 as (b2 & Hb2 & Hb2n & -> & Hs).
  apply bind_Some' in E7 as ([a r] & Ha & E7). apply span_phrase in Ha as (-> & Ha); [|done]. injection E7 as <- <-. exists (chars "RUN" ++ b ++ w ++ b2 ++ a). split; [by rewrite <- !app_assoc|].
  constructor; [done|by apply Word_bool|done..].
Qed.

(** ** The lines *)
Lemma parse_cases_line_eq t : parse_cases_line t = finish (first_of [comment_rule; command_rule; testcase_rule; empty_rule] t).
Proof. done. Qed.
Lemma cases_line_complete t l : CasesLine t l -> parse_cases_line t = Some l.
Proof.
  rewrite parse_cases_line_eq, !first_of_cons. intros [r|b u k c Hb Hu Hc|u c Hu Hh Hc|].
  - done.
  - change (comment_rule _) with (@None (cases_line * text)). rewrite (command_complete b u k c) by done. by apply finish_tail.
  - destruct Hu as [Hn Hu]. destruct u as [|x u]; [done|]. inversion Hu as [|?? Hx Hu']; subst.
    assert (comment_rule ((x :: u) ++ c) = None) as ->. { unfold comment_rule. cbn [app literal]. rewrite decide_False; [done|congruence]. }
    assert (command_rule ((x :: u) ++ c) = None) as ->. { unfold command_rule. cbn [app literal]. rewrite decide_False; [done|]. intros <-. by apply Hh. }
    assert (testcase_rule ((x :: u) ++ c) = Some (CTestcase (x :: u), c)) as ->; [|by apply finish_tail].
    unfold testcase_rule. cbn [app]. rewrite decide_False; [|intros [->| ->]; [done|by apply Hh]]. change (x :: u ++ c) with ((x :: u) ++ c).
    rewrite span1_app; [done|done| |by destruct Hc as [->|[r ->]]]. eapply Forall_impl; [exact Hu|]. intros y. by apply not_hash_spec.
  - done.
Qed.
Lemma cases_line_sound t l : parse_cases_line t = Some l -> CasesLine t l.
Proof.
  rewrite parse_cases_line_eq, !first_of_cons. intros (c & H & Hc)%finish_inv.
  destruct (comment_rule t) as [[? ?]|] eqn:E1.
  { injection H as -> ->. unfold comment_rule in E1. apply bind_Some' in E1 as (t' & Hl & E1). apply literal_inv in Hl as ->. injection E1 as <- _. constructor. }
  destruct (command_rule t) as [[? ?]|] eqn:E2.
  { injection H as -> ->. apply command_sound in E2 as (b & u & -> & Hb & Hu); [|done]. by constructor. }
  destruct (testcase_rule t) as [[? ?]|] eqn:E3.
  { injection H as -> ->. unfold testcase_rule in E3. destruct t as [|x t]; [done|]. destruct (decide (x = hash \/ x = colon)) as [|Hx]; [done|].
    apply bind_Some' in E3 as ([r c'] & Hr & E3). injection E3 as <- <-. apply span1_inv in Hr as (Hr & Hn & Hf & _). rewrite Hr. constructor; [by apply Rest_bool| |done].
    destruct r as [|y r]; [done|]. injection Hr as <- _. cbn. intros [= ->]. tauto. }
  injection H as <- H. destruct t as [|x t]; [constructor|]. exfalso. destruct (decide (x = hash)) as [->|Hh]; [done|]. destruct (decide (x = colon)) as [->|Hcol].
  - cbn in H. subst c. destruct Hc as [?|[r [=]]]. done.
  - unfold testcase_rule in E3. rewrite decide_False in E3 by tauto. destruct (span1 not_hash (x :: t)) as [[? ?]|] eqn:E; [done|]. apply span1_None in E. cbn in E. unfold not_hash in E. apply negb_false_iff, N.eqb_eq in E. done.
Qed.
