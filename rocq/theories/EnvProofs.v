(** Proofs for C105. *)
From Verif Require Import EnvSpec.
From Coq Require Import Ascii String.
From stdpp Require Import base list.

Lemma is_delimiter_blank c : is_delimiter c = true <-> blank c.
Proof. unfold is_delimiter, blank, tab, eol. rewrite !orb_true_iff, !bool_decide_eq_true. tauto. Qed.
Lemma split_quoted w acc rest : split_from SingleQuoted acc (concat (map escaped w) ++ chars "'" ++ rest) =
  split_from Unquoted (acc ++ w) rest.
Proof.
  revert acc. induction w as [|c w IH]; intros acc; [by rewrite app_nil_r|].
  cbn [map concat]. rewrite <- app_assoc. unfold escaped at 1.
  replace (acc ++ c :: w) with ((acc ++ [c]) ++ w) by (by rewrite <- app_assoc). rewrite <- IH.
  destruct (decide (c = "'"%char)) as [->|Hc]; [done|]. cbn [split_from app]. unfold quote. by rewrite decide_False.
Qed.
Lemma split_quoted_line ws : split_from Delimiter [] (quoted_line ws) = Some ws /\ forall word, split_from Unquoted word (quoted_line ws) = Some (word :: ws).
Proof.
  induction ws as [|w ws [IH1 IH2]]; [done|].
  assert (E : split_from SingleQuoted [] (concat (map escaped w) ++ chars "'" ++ quoted_line ws) = Some (w :: ws)).
  { rewrite split_quoted. apply IH2. }
  assert (El : quoted_line (w :: ws) = " "%char :: "'"%char :: concat (map escaped w) ++ chars "'" ++ quoted_line ws).
  { unfold quoted_line at 1. cbn [map concat]. unfold in_quotes. rewrite <- !app_assoc. done. }
  rewrite El. split; [exact E|]. intros word. 
  change (cons word <$> split_from SingleQuoted [] (concat (map escaped w) ++ chars "'" ++ quoted_line ws) = Some (word :: w :: ws)).
  by rewrite E.
Qed.
Lemma split_blanks b s : Forall blank b -> split_from Delimiter [] (b ++ s) = split_from Delimiter [] s.
Proof.
  induction 1 as [|c b Hc Hb IH]; [done|]. rewrite <- IH. clear IH. cbn [app split_from].
  destruct Hc as [-> |[-> | ->]]; done.
Qed.
Lemma unquoted_step c word s : ~ blank c -> ~ quoting c -> split_from Unquoted word (c :: s) = split_from Unquoted (word ++ [c]) s.
Proof.
  intros Hb Hq. cbn [split_from]. unfold quoting in Hq. unfold quote, dquote, backslash.
  rewrite !decide_False by tauto. destruct (is_delimiter c) eqn:E; [|done]. by apply is_delimiter_blank in E.
Qed.
Lemma unquoted_word w word s : Forall (fun c => ~ blank c /\ ~ quoting c) w -> split_from Unquoted word (w ++ s) = split_from Unquoted (word ++ w) s.
Proof.
  intros H. revert word. induction H as [|c w [Hb Hq] Hw IH]; intros word; [by rewrite app_nil_r|].
  cbn [app]. rewrite unquoted_step by done. rewrite IH. by rewrite <- app_assoc.
Qed.
Lemma split_plain w s : plain_word w -> split_from Delimiter [] (w ++ s) = split_from Unquoted w s.
Proof.
  intros (Hne&Hf&Hh). destruct w as [|c w]; [done|]. apply Forall_cons in Hf as [[Hb Hq] Hw].
  rewrite <- (unquoted_word w [c] s Hw) at 1. cbn [app split_from]. unfold quoting in Hq. unfold quote, dquote, backslash.
  rewrite !decide_False by tauto. destruct (is_delimiter c) eqn:E; [by apply is_delimiter_blank in E|].
  rewrite decide_False; [done|]. intros ->. by apply Hh.
Qed.
Lemma split_laid_out s ws : laid_out s ws -> split_from Delimiter [] s = Some ws.
Proof.
  induction 1 as [b Hb|b w Hb Hw|b w c rest ws Hb Hw Hc Hr IH].
  - rewrite <- (app_nil_r b). by rewrite split_blanks.
  - rewrite split_blanks by done. rewrite <- (app_nil_r w) at 1. by rewrite split_plain.
  - rewrite split_blanks by done. rewrite split_plain by done.
    assert (E : split_from Unquoted w (c :: rest) = cons w <$> split_from Delimiter [] rest); [|by rewrite E, IH].
    destruct Hc as [-> |[-> | ->]]; done.
Qed.
Definition in_a_quote (st : split_state) : Prop := match st with SingleQuoted | DoubleQuoted | DoubleQuotedBackslash => True | _ => False end.
Lemma split_no_quotes s st word : Forall (fun c => c <> "'"%char /\ c <> """"%char) s -> ~ in_a_quote st -> is_Some (split_from st word s).
Proof.
  intros H. revert st word. induction H as [|c s [Hq Hd] Hs IH]; intros st word Hst.
  - destruct st; cbn; try (eexists; reflexivity); exfalso; by apply Hst.
  - destruct st; cbn [split_from]; try (exfalso; by apply Hst);
      unfold quote, dquote; repeat case_decide; try done; try destruct (is_delimiter c); try (apply IH; by intros []).
    apply fmap_is_Some. apply IH. by intros [].
Qed.
Lemma split_inverse s ws : split_from Delimiter [] s = Some ws -> shell_split (string_of_list_ascii s) = Some (map string_of_list_ascii ws).
Proof. intros H. unfold shell_split, chars. by rewrite list_ascii_of_string_of_list_ascii, H. Qed.

Lemma first_or_else {A} (a b : option A) (d : A) : first_of [a; b; Some d] (unwrap_or (or_else a b) d).
Proof.
  destruct a as [a|]; [exists 0; split; [done|lia]|]. destruct b as [b|].
  - exists 1. split; [done|]. intros [|j] Hj; [done|lia].
  - exists 2. split; [done|]. intros [|[|j]] Hj; [done..|lia].
Qed.
Lemma first_unwrap {A} (a : option A) (d : A) : first_of [a; Some d] (unwrap_or a d).
Proof. destruct a as [a|]; [exists 0; split; [done|lia]|]. exists 1. split; [done|]. intros [|j] Hj; [done|lia]. Qed.
Lemma first_unique {A} (l : list (option A)) x y : first_of l x -> first_of l y -> x = y.
Proof.
  intros (i&Hi&Hi')  (j&Hj&Hj'). destruct (Nat.lt_trichotomy i j) as [H|[->|H]].
  - specialize (Hj' _ H). congruence.
  - congruence.
  - specialize (Hi' _ H). congruence.
Qed.
