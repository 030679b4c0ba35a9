(** * GenBackProofs2: the lines of the written gen/GEN *)
From stdpp Require Import pretty.
From Verif Require Import GenBackSpec FormatProofs FormatProofs2 FormatProofs3 FormatProofs4 CasesProofs CasesProofs2 GenBackProofs.

(** ** Texts without ends of line *)
Lemma pretty_char_newline x s : no_newline (chars s) -> no_newline (chars (String (pretty_N_char x) s)).
Proof. intros H. change (no_newline (Ascii.N_of_ascii (pretty_N_char x) :: chars s)). constructor; [|done]. unfold pretty_N_char. repeat case_match; by vm_compute. Qed.
Lemma pretty_go_newline x : forall s, no_newline (chars s) -> no_newline (chars (pretty_N_go x s)).
Proof.
  induction (N.lt_wf_0 x) as [x _ IH]; intros s Hs. assert (x = 0 \/ 0 < x)%N as [->|Hx] by lia; [by rewrite pretty_N_go_0|].
  rewrite pretty_N_go_step by done. apply IH; [by apply N.div_lt|]. by apply pretty_char_newline.
Qed.
Lemma pretty_N_newline (x : N) : no_newline (chars (pretty x)).
Proof. unfold pretty, pretty_N. destruct (decide _); [by vm_compute; repeat constructor|]. apply pretty_go_newline. constructor. Qed.
Lemma pretty_nat_newline (x : nat) : no_newline (chars (pretty x)).
Proof. apply pretty_N_newline. Qed.
Lemma chars_append a b : chars (a +:+ b) = chars a ++ chars b.
Proof. induction a as [|c a IH]; [done|]. exact (f_equal (cons (Ascii.N_of_ascii c)) IH). Qed.
Lemma pretty_Z_newline (x : Z) : no_newline (chars (pretty x)).
Proof.
  unfold pretty, pretty_Z. destruct x; [by vm_compute; repeat constructor|apply pretty_N_newline|]. rewrite chars_append. apply no_newline_app. split; [by vm_compute; repeat constructor|apply pretty_N_newline].
Qed.
Ltac closed := vm_compute; repeat constructor; discriminate.
Lemma operand_newline x : OperandFact x -> no_newline (operand_text x).
Proof. destruct x as [k|v]; intros H; [apply pretty_Z_newline|]. constructor; [by split|done]. Qed.
Lemma chain_newline os xs : Forall OperandFact xs -> no_newline (chain_text os xs).
Proof.
  revert xs. induction os as [|o os IH]; intros [|x xs] H; cbn [chain_text]; try (by constructor). apply Forall_cons in H as [Hx H]. rewrite !no_newline_app. split_and!; [closed|destruct o; closed|closed|by apply operand_newline|by apply IH].
Qed.
Lemma constraint_newline c : ConstraintFact c -> no_newline (constraint_text c).
Proof.
  unfold ConstraintFact, constraint_text. destruct (co_operands c) as [|x xs]; [constructor|]. intros H. apply Forall_cons in H as [Hx H]. apply no_newline_app. split; [by apply operand_newline|by apply chain_newline].
Qed.
Lemma join_newline l : Forall no_newline l -> no_newline (join_words l).
Proof.
  destruct l as [|w l]; intros H; [constructor|]. apply Forall_cons in H as [Hw H]. cbn [join_words]. apply no_newline_app. split; [done|]. induction H as [|x l Hx _ IH]; cbn [flat_map]; [constructor|].
  apply no_newline_app. split; [|done]. constructor; [by split|done].
Qed.

(** ** Lines that are read *)
Lemma comment_line t : parse_gen_line (chars "# " ++ t) = Some LComment.
Proof. apply gen_line_complete. apply (GenLine_comment 32%N t). by left. Qed.
Lemma digits_forallb w : w <> [] -> Digits w <-> forallb is_digit w = true.
Proof. intros Hne. rewrite Digits_bool, <- forallb_Forall. naive_solver. Qed.
Lemma score_line w : Word w -> parse_gen_line (chars "#ST: " ++ w) = if forallb is_digit w then Some (LSubtask w) else None.
Proof.
  intros Hw. destruct (forallb is_digit w) eqn:Hd.
  - apply gen_line_complete. apply digits_forallb in Hd; [|apply Hw]. pose proof (GenLine_subtask (chars " ") w [] []) as H. rewrite !app_nil_r in H. rewrite app_assoc in H. apply H; [|done|constructor|by left]. repeat constructor.
  - rewrite parse_gen_line_eq. unfold gen_rules. rewrite first_of_cons.
    assert (gen_subtask (chars "#ST: " ++ w) = '(n, t) ← span1 is_digit w; Some (LSubtask n, blanks t)) as ->.
    { unfold gen_subtask. change (chars "#ST: " ++ w) with (chars "#ST:" ++ chars " " ++ w). rewrite literal_app. cbn [mbind option_bind]. rewrite blanks_app; [done|repeat constructor|]. rewrite <- (app_nil_r w). by apply blank_stops_word. }
    destruct (span1 is_digit w) as [[n t]|] eqn:Hs; [|done]. cbn [mbind option_bind]. apply span1_inv in Hs as (-> & Hne & Hn & Hst).
    assert (t <> []) as Ht. { intros ->. rewrite app_nil_r in Hd. apply forallb_Forall in Hn. congruence. }
    destruct t as [|c t]; [done|]. destruct Hw as [_ Hw]. apply Forall_app in Hw as [_ Hw]. apply Forall_cons in Hw as [[Hb Hh] _].
    assert (blanks (c :: t) = c :: t) as ->. { apply (blanks_app [] (c :: t)); [constructor|]. cbn. destruct (is_blank c) eqn:E; [|done]. by apply is_blank_spec in E. }
    cbn [finish]. unfold finish. cbn [mbind option_bind]. by rewrite decide_False.
Qed.
Lemma name_line w : Word w -> parse_gen_line (chars "#STNAME: " ++ w) = Some (LName w).
Proof.
  intros Hw. apply gen_line_complete. pose proof (GenLine_name (chars " ") w [] []) as H. rewrite !app_nil_r in H. rewrite app_assoc in H. apply H; [|done|constructor|by left]. repeat constructor.
Qed.
Lemma phrase_word p : Phrase p -> exists w r, Word w /\ p = w ++ r /\ span1 is_word p = Some (w, r).
Proof.
  intros [[Hne Hh] Hb]. destruct (span1 is_word p) as [[w r]|] eqn:Hs.
  - exists w, r. apply span1_inv in Hs as (-> & H1 & H2 & _). split_and!; [by apply Word_bool|done|done].
  - exfalso. apply span1_None in Hs. destruct p as [|c p]; [done|]. cbn in Hs. apply Forall_cons in Hh as [Hh _]. assert (is_word c = true) as Hc; [|by rewrite Hc in Hs]. apply is_word_spec. split; [by apply Hb|done].
Qed.
Lemma copy_line p l : Phrase p -> parse_gen_line (chars "#COPY: " ++ p) = Some l <-> exists w b, Word w /\ Blanks b /\ p = w ++ b /\ l = LCopy w.
Proof.
  intros Hp. split.
  - intros H. rewrite parse_gen_line_eq in H. unfold gen_rules in H. rewrite !first_of_cons in H.
    destruct (phrase_word p Hp) as (w & r & Hw & -> & Hs).
    assert (gen_copy (chars "#COPY: " ++ w ++ r) = Some (LCopy w, blanks r)) as Hc.
    { unfold gen_copy. change (chars "#COPY: " ++ w ++ r) with (chars "#COPY:" ++ chars " " ++ w ++ r). rewrite literal_app. cbn [mbind option_bind]. rewrite blanks_app; [by rewrite Hs|repeat constructor|by apply blank_stops_word]. }
    rewrite Hc in H. cbn [gen_subtask gen_name gen_deps] in H.
    change (gen_subtask (chars "#COPY: " ++ w ++ r)) with (@None (gen_line * text)) in H. change (gen_name (chars "#COPY: " ++ w ++ r)) with (@None (gen_line * text)) in H. change (gen_deps (chars "#COPY: " ++ w ++ r)) with (@None (gen_line * text)) in H. cbv iota in H.
    apply finish_inv in H as (c & [= <- <-] & Ht). destruct (blanks_inv r) as (b & Hb & Hr & _). exists w, b. split_and!; [done|done| |done]. f_equal.
    destruct Ht as [Ht|[r' Ht]]; [by rewrite Ht, app_nil_r in Hr|]. exfalso. destruct Hp as [[_ Hh] _]. rewrite Hr, Ht in Hh. apply Forall_app in Hh as [_ Hh]. apply Forall_app in Hh as [_ Hh]. by apply Forall_cons in Hh as [? _].
  - intros (w & b & Hw & Hb & -> & ->). apply gen_line_complete. pose proof (GenLine_copy (chars " ") w b []) as H. rewrite !app_nil_r in H. rewrite app_assoc in H. apply H; [|done|done|by left]. repeat constructor.
Qed.
Lemma words_up_to t : stops is_word t -> exists ws, WordsUpTo t ws.
Proof.
  remember (length t) as n eqn:Hn. assert (length t <= n) as Hle by lia. clear Hn. revert t Hle. induction n as [|n IH]; intros t Hle Hst.
  - destruct t; [|cbn in Hle; lia]. exists [], [], [], []. split_and!; [constructor|constructor|by left|done].
  - destruct (blanks_inv t) as (b & Hb & Ht & Hs). destruct (blanks t) as [|c r] eqn:Hr.
    + exists [], [], b, []. split_and!; [constructor|done|by left|done].
    + destruct (decide (c = hash)) as [->|Hc]; [exists [], [], b, (hash :: r); split_and!; [constructor|done|right; eauto|done]|].
      assert (is_word c = true) as Hw. { apply is_word_spec. split; [|done]. intros E. apply is_blank_spec in E. cbn in Hs. by rewrite E in Hs. }
      assert (b <> []) as Hne. { intros ->. cbn in Ht. subst t. cbn in Hst. by rewrite Hw in Hst. }
      destruct (span1 is_word (c :: r)) as [[w u]|] eqn:Hsp; [|apply span1_None in Hsp; cbn in Hsp; by rewrite Hw in Hsp].
      apply span1_inv in Hsp as (Heq & Hwne & Hww & Hu). destruct (IH u) as (ws & u' & b' & c' & Hws & Hb' & Ht' & ->); [|done|].
      { rewrite Ht, Heq, !app_length in Hle. destruct b; [done|]. destruct w; [done|]. cbn in Hle. lia. }
      exists (w :: ws), (b ++ w ++ u'), b', c'. split_and!; [constructor; [done|done|by apply Word_bool|done]|done|done|]. rewrite Ht, Heq. by rewrite <- !app_assoc.
Qed.
Lemma command_line src rest ws : Word src -> WordsUpTo (chars " " ++ rest) ws -> parse_gen_line (src ++ [32%N] ++ rest) = Some (LCommand (src :: ws)).
Proof.
  intros Hs (u & b & c & Hu & Hb & Hc & Ht). apply gen_line_complete. change ([32%N] ++ rest) with (chars " " ++ rest). rewrite Ht. apply (GenLine_command []); [constructor|done..].
Qed.
Lemma command_words src rest : Word src -> exists ws, WordsUpTo (chars " " ++ rest) ws /\ parse_gen_line (src ++ [32%N] ++ rest) = Some (LCommand (src :: ws)).
Proof. intros Hs. destruct (words_up_to (chars " " ++ rest)) as [ws Hws]; [done|]. exists ws. split; [done|]. by apply command_line. Qed.
Lemma words_up_to_fun t ws ws' : WordsUpTo (chars " " ++ t) ws -> WordsUpTo (chars " " ++ t) ws' -> ws = ws'.
Proof.
  intros H H'. assert (Word [120%N]) as Hx. { split; [done|]. constructor; [|done]. split; [by intros []|done]. }
  pose proof (command_line _ _ _ Hx H) as E. pose proof (command_line _ _ _ Hx H') as E'. rewrite E in E'. by injection E'.
Qed.
Lemma words_words args : Forall Word args -> WordsUpTo (chars " " ++ join_words args) args.
Proof.
  destruct args as [|w args]; intros H.
  - exists [], (chars " "), []. split_and!; [constructor|repeat constructor|by left|done].
  - apply Forall_cons in H as [Hw H]. exists (chars " " ++ w ++ flat_map (fun x => 32%N :: x) args), [], []. split_and!; [|constructor|by left|by rewrite !app_nil_r].
    assert (forall b, b = chars " " -> Words args (flat_map (fun x => 32%N :: x) args)) as Hr.
    { intros _ _. induction H as [|x l Hx _ IH]; cbn [flat_map]; [constructor|]. change ((32%N :: x) ++ flat_map (fun y => 32%N :: y) l) with (chars " " ++ x ++ flat_map (fun y => 32%N :: y) l). by constructor; [repeat constructor|..]. }
    constructor; [repeat constructor|done|done|by eapply Hr].
Qed.
