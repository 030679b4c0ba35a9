(** * PrintUiProofs: the pieces of a line can be read back *)
From Verif Require Import PrintUiModel PrintUiSpec.
From Coq Require Import Ascii String DecimalN HexadecimalN.
From stdpp Require Import list sets.

(** ** Numbers *)
Lemma decimal_inj a b : decimal_text a = decimal_text b -> a = b.
Proof. revert b. induction a; intros []; cbn; try done; intros [= E]; f_equal; by apply IHa. Qed.
Lemma hexadecimal_inj a b : hexadecimal_text a = hexadecimal_text b -> a = b.
Proof. revert b. induction a; intros []; cbn; try done; intros [= E]; f_equal; by apply IHa. Qed.
Lemma dec_inj a b : dec a = dec b -> a = b.
Proof. intros H%decimal_inj. by apply DecimalN.Unsigned.to_uint_inj. Qed.
Lemma hex_inj a b : hex a = hex b -> a = b.
Proof. intros H%hexadecimal_inj. by apply HexadecimalN.Unsigned.to_uint_inj. Qed.
Definition digit (c : N) : Prop := (48 <= c <= 57)%N.
Lemma dec_digits n : Forall digit (dec n).
Proof. unfold dec. induction (N.to_uint n); cbn; constructor; done || (unfold digit; lia). Qed.
Lemma hex_no_brace n : 125%N ∉ hex n /\ 10%N ∉ hex n.
Proof. unfold hex. induction (N.to_hex_uint n) as [|? [H1 H2]|? [H1 H2]|? [H1 H2]|? [H1 H2]|? [H1 H2]|? [H1 H2]|? [H1 H2]|? [H1 H2]|? [H1 H2]|? [H1 H2]|? [H1 H2]|? [H1 H2]|? [H1 H2]|? [H1 H2]|? [H1 H2]|? [H1 H2]]; cbn; (split; [intros H|intros H]); try (by apply elem_of_nil in H);
  apply elem_of_cons in H as [H|H]; try done; auto. Qed.

(** ** Reading from the left *)
Lemma cut_at (c : N) a b x y : c ∉ a -> c ∉ b -> a ++ c :: x = b ++ c :: y -> a = b /\ x = y.
Proof.
  revert b. induction a as [|h a IH]; intros [|k b] Ha Hb; cbn.
  - by intros [= ->].
  - intros [= -> _]. set_solver.
  - intros [= -> _]. set_solver.
  - intros [= -> E]. destruct (IH b) as [-> ->]; [set_solver|set_solver|done|done].
Qed.
Lemma str_cons c s : str (String c s) = N_of_ascii c :: str s.
Proof. done. Qed.
Lemma lit s x y : str s ++ x = str s ++ y -> x = y.
Proof. apply app_inv_head. Qed.
Lemma dec_lit a b c s x y : ~ digit (N_of_ascii c) -> dec a ++ str (String c s) ++ x = dec b ++ str (String c s) ++ y -> a = b /\ x = y.
Proof.
  intros Hc. rewrite str_cons. cbn [app]. intros E.
  assert (H : forall n, N_of_ascii c ∉ dec n). { intros n Hn. pose proof (dec_digits n) as Hd. rewrite Forall_forall in Hd. by apply Hc, Hd. }
  apply cut_at in E as [E1 E2]; [|apply H|apply H]. split; [by apply dec_inj|by apply app_inv_head in E2].
Qed.
Lemma text_lit a b s x y : 32%N ∉ a -> 32%N ∉ b -> a ++ str (String " " s) ++ x = b ++ str (String " " s) ++ y -> a = b /\ x = y.
Proof.
  intros Ha Hb. rewrite str_cons. change (N_of_ascii " ") with 32%N. cbn [app]. intros E. apply cut_at in E as [-> E2]; [|done|done].
  split; [done|by apply app_inv_head in E2].
Qed.

Section debug.
Context (plain : nat -> N -> bool).
(** a character that is escaped is read back, and is not a quote *)
Lemma escape_read q i c d x y : escape plain q i c ++ x = escape plain q i d ++ y -> c = d /\ x = y.
Proof.
  unfold escape. intros E.
  repeat case_decide; subst; try done; cbn in E; try (destruct q); cbn in E;
    repeat match goal with H : context [if ?p then _ else _] |- _ => destruct p; cbn in H end;
    simplify_eq/=; try done.
  all: rewrite <- !(assoc_L (++)) in E; cbn [app] in E; apply cut_at in E as [E1 E2]; [by apply hex_inj in E1|apply hex_no_brace|apply hex_no_brace].
Qed.
Lemma escape_head q i c x y : escape plain q i c ++ x = 34%N :: y -> False.
Proof.
  unfold escape. intros E. repeat case_decide; subst; try done; cbn in E; try (destruct q); cbn in E; try done; destruct (plain i c); cbn in E; try done.
  all: simplify_eq.
Qed.

Lemma escapes_read q i s t x y : escapes plain q i s ++ 34%N :: x = escapes plain q i t ++ 34%N :: y -> s = t /\ x = y.
Proof.
  revert i t. induction s as [|c s IH]; intros i [|d t]; cbn [escapes app].
  - by intros [= ->].
  - rewrite <- (assoc_L (++)). intros E. symmetry in E. by apply escape_head in E.
  - rewrite <- (assoc_L (++)). intros E. by apply escape_head in E.
  - rewrite <- !(assoc_L (++)). intros [-> E]%escape_read. by apply IH in E as [-> ->].
Qed.
Lemma path_read s t x y : dbg_path plain s ++ x = dbg_path plain t ++ y -> s = t /\ x = y.
Proof. unfold dbg_path. cbn [app]. rewrite <- !(assoc_L (++)). cbn [app]. intros [= E]. by apply escapes_read in E. Qed.
Lemma string_read s t x y : dbg_str plain s ++ x = dbg_str plain t ++ y -> s = t /\ x = y.
Proof. unfold dbg_str. cbn [app]. rewrite <- !(assoc_L (++)). cbn [app]. intros [= E]. by apply escapes_read in E. Qed.

(** ** No newline *)
Ltac nolist := let H := fresh in intros H; repeat (apply elem_of_cons in H as [H|H]; [by (discriminate H || (subst; done))|]); by apply elem_of_nil in H.
Lemma escape_line q i c : 10%N ∉ escape plain q i c.
Proof.
  unfold escape. repeat case_decide; try nolist; [destruct q; nolist|]. destruct (plain i c); [nolist|].
  rewrite !elem_of_app. intros [G|[G|G]]; [revert G; nolist| |revert G; nolist]. by apply hex_no_brace in G.
Qed.
Lemma escapes_line q i s : 10%N ∉ escapes plain q i s.
Proof. revert i. induction s as [|c s IH]; intros i; cbn; [by intros ?%elem_of_nil|]. rewrite elem_of_app. intros [H|H]; [by apply escape_line in H|by apply IH in H]. Qed.
Lemma path_line s : 10%N ∉ dbg_path plain s.
Proof. unfold dbg_path. rewrite elem_of_cons, elem_of_app. intros [H|[H|H]]; [done|by apply escapes_line in H|set_solver]. Qed.
Lemma string_line s : 10%N ∉ dbg_str plain s.
Proof. unfold dbg_str. rewrite elem_of_cons, elem_of_app. intros [H|[H|H]]; [done|by apply escapes_line in H|set_solver]. Qed.
Lemma dec_line n : 10%N ∉ dec n.
Proof. intros H. pose proof (dec_digits n) as Hd. rewrite Forall_forall in Hd. apply Hd in H. unfold digit in H. lia. Qed.

End debug.
