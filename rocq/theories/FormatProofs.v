(** * FormatProofs: the lines of gen/GEN *)
From Verif Require Import FormatSpec.

Definition stops (f : N -> bool) (t : text) : Prop := match t with [] => True | c :: _ => f c = false end.
Lemma span_app f a b : Forall (fun c => f c = true) a -> stops f b -> span f (a ++ b) = (a, b).
Proof.
  intros Ha Hb. induction Ha as [|c a Hc _ IH].
  - cbn [app]. destruct b as [|c b]; [done|]. cbn [span]. cbn in Hb. by rewrite Hb.
  - cbn [app span]. by rewrite Hc, IH.
Qed.
Lemma span_inv f t a b : span f t = (a, b) -> t = a ++ b /\ Forall (fun c => f c = true) a /\ stops f b.
Proof.
  revert a b. induction t as [|c t IH]; intros a b H; cbn [span] in H.
  - injection H as <- <-. split_and!; [done|constructor|exact I].
  - destruct (f c) eqn:Hc.
    + destruct (span f t) as [a' b'] eqn:Hs. injection H as <- <-. destruct (IH _ _ eq_refl) as (-> & Ha & Hb). split_and!; [done|by constructor|done].
    + injection H as <- <-. split_and!; [done|constructor|done].
Qed.
Lemma span1_app f a b : a <> [] -> Forall (fun c => f c = true) a -> stops f b -> span1 f (a ++ b) = Some (a, b).
Proof. intros Hn Ha Hb. unfold span1. rewrite (span_app f a b) by done. by destruct a. Qed.
Lemma span1_inv f t a b : span1 f t = Some (a, b) -> t = a ++ b /\ a <> [] /\ Forall (fun c => f c = true) a /\ stops f b.
Proof.
  unfold span1. destruct (span f t) as [a' b'] eqn:H. destruct a' as [|c a']; [done|]. intros [= <- <-]. apply span_inv in H as (-> & ? & ?). by repeat split.
Qed.
Lemma span1_None f t : span1 f t = None <-> stops f t.
Proof.
  unfold span1. destruct (span f t) as [a b] eqn:H. apply span_inv in H as (-> & Ha & Hb). destruct a as [|c a]; [by cbn [app]|].
  split; [done|]. cbn. intros Hc. inversion Ha; subst. congruence.
Qed.
Lemma is_blank_spec c : is_blank c = true <-> Blank c.
Proof. unfold is_blank, Blank. rewrite orb_true_iff, !N.eqb_eq. done. Qed.
Lemma is_word_spec c : is_word c = true <-> ~ Blank c /\ c <> hash.
Proof. unfold is_word. rewrite andb_true_iff, !negb_true_iff, N.eqb_neq, <- not_true_iff_false, is_blank_spec. done. Qed.
Lemma is_digit_spec c : is_digit c = true <-> (48 <= c <= 57)%N.
Proof. unfold is_digit. rewrite andb_true_iff, !N.leb_le. done. Qed.
Lemma not_hash_spec c : not_hash c = true <-> c <> hash.
Proof. unfold not_hash. by rewrite negb_true_iff, N.eqb_neq. Qed.
Lemma blank_not_word c : is_blank c = true -> is_word c = false.
Proof. unfold is_word. by intros ->. Qed.
Lemma word_not_blank c : is_word c = true -> is_blank c = false.
Proof. unfold is_word. by destruct (is_blank c). Qed.
Lemma digit_is_word c : is_digit c = true -> is_word c = true.
Proof. rewrite is_digit_spec, is_word_spec. unfold Blank, hash. lia. Qed.
Lemma hash_blank : is_blank hash = false. Proof. done. Qed.
Lemma hash_word : is_word hash = false. Proof. done. Qed.
Lemma hash_digit : is_digit hash = false. Proof. done. Qed.

Lemma Blanks_bool b : Blanks b <-> Forall (fun c => is_blank c = true) b.
Proof. split; intros H; eapply Forall_impl; try exact H; intros c; by rewrite is_blank_spec. Qed.
Lemma Word_bool w : Word w <-> w <> [] /\ Forall (fun c => is_word c = true) w.
Proof. unfold Word. split; intros [? H]; (split; [done|]); eapply Forall_impl; try exact H; intros c; by rewrite is_word_spec. Qed.
Lemma Digits_bool w : Digits w <-> w <> [] /\ Forall (fun c => is_digit c = true) w.
Proof. unfold Digits. split; intros [? H]; (split; [done|]); eapply Forall_impl; try exact H; intros c; by rewrite is_digit_spec. Qed.
Lemma Rest_bool w : Rest w <-> w <> [] /\ Forall (fun c => not_hash c = true) w.
Proof. unfold Rest. split; intros [? H]; (split; [done|]); eapply Forall_impl; try exact H; intros c; by rewrite not_hash_spec. Qed.

Lemma literal_app p t : literal p (p ++ t) = Some t.
Proof. induction p as [|a p IH]; [done|]. cbn [app literal]. by rewrite decide_True. Qed.
Lemma literal_inv p t r : literal p t = Some r -> t = p ++ r.
Proof.
  revert t. induction p as [|a p IH]; intros t H; [by injection H as <-|]. destruct t as [|b t]; [done|]. cbn [literal] in H. destruct (decide (a = b)) as [->|]; [|done]. cbn [app]. by rewrite (IH _ H).
Qed.

(** Where spans stop *)
Lemma tail_stops f c : f hash = false -> Tail c -> stops f c.
Proof. intros Hf [->|[r ->]]; [exact I|exact Hf]. Qed.
Lemma stops_app f a b : Forall (fun c => f c = false) a -> stops f b -> stops f (a ++ b).
Proof. intros Ha Hb. destruct Ha; [done|]. by cbn. Qed.
Lemma word_stops_blank b t : Blanks b -> b <> [] -> stops is_word (b ++ t).
Proof. intros Hb Hn. destruct b as [|c b]; [done|]. cbn. apply Blanks_bool in Hb. inversion Hb; subst. by apply blank_not_word. Qed.
Lemma blank_stops_word w t : Word w -> stops is_blank (w ++ t).
Proof. intros Hw. apply Word_bool in Hw as [Hn Hw]. destruct w as [|c w]; [done|]. cbn. inversion Hw; subst. by apply word_not_blank. Qed.
Lemma word_stops_end b c : Blanks b -> Tail c -> stops is_word (b ++ c).
Proof. intros Hb Hc. destruct b as [|x b]; [by apply tail_stops|]. by apply word_stops_blank. Qed.
Lemma blanks_app b t : Blanks b -> stops is_blank t -> blanks (b ++ t) = t.
Proof. intros Hb Ht. unfold blanks. rewrite (span_app is_blank b t); [done|by apply Blanks_bool|done]. Qed.
Lemma blanks_inv t : exists b, Blanks b /\ t = b ++ blanks t /\ stops is_blank (blanks t).
Proof. unfold blanks. destruct (span is_blank t) as [a b] eqn:H. apply span_inv in H as (-> & Ha & Hb). exists a. split; [by apply Blanks_bool|done]. Qed.
Lemma blanks_tail t : (match blanks t with [] => True | c :: _ => c = hash end) -> exists b c, Blanks b /\ Tail c /\ t = b ++ c.
Proof. destruct (blanks_inv t) as (b & Hb & Ht & _). intros H. exists b, (blanks t). split_and!; [done| |done]. destruct (blanks t) as [|x r]; [by left|]. right. exists r. by rewrite H. Qed.
Lemma blanks1_app b t : Blanks b -> b <> [] -> stops is_blank t -> blanks1 (b ++ t) = Some t.
Proof. intros Hb Hn Ht. unfold blanks1. rewrite (span1_app is_blank b t); [done|done|by apply Blanks_bool|done]. Qed.
Lemma blanks1_inv t r : blanks1 t = Some r -> exists b, Blanks b /\ b <> [] /\ t = b ++ r /\ stops is_blank r.
Proof. unfold blanks1. destruct (span1 is_blank t) as [[a b]|] eqn:H; [|done]. intros [= <-]. apply span1_inv in H as (-> & Hn & Ha & Hb). exists a. split_and!; [by apply Blanks_bool|done..]. Qed.
Lemma blanks1_None t : blanks1 t = None <-> stops is_blank t.
Proof. unfold blanks1. rewrite <- span1_None. destruct (span1 is_blank t) as [[a b]|]; done. Qed.

Lemma Words_stops ws u t : Words ws u -> stops is_word t -> stops is_word (u ++ t).
Proof. intros [|b w ws' t' Hb Hn Hw Hws] Ht; [done|]. rewrite <- !app_assoc. by apply word_stops_blank. Qed.
Lemma Words_length ws u : Words ws u -> length ws <= length u.
Proof. induction 1 as [|b w ws t Hb Hn Hw _ IH]; [done|]. cbn [length]. rewrite !app_length. destruct b; [done|]. cbn [length]. lia. Qed.

(** The end of a line *)
Lemma more_words_app n ws u b c : Words ws u -> Blanks b -> Tail c -> length ws <= n -> more_words n (u ++ b ++ c) = (ws, b ++ c).
Proof.
  intros Hws Hb Hc. revert n. induction Hws as [|b1 w ws t Hb1 Hn Hw Hws IH]; intros n Hlen.
  - cbn [app]. destruct n as [|n]; [done|]. cbn [more_words]. destruct b as [|x b].
    + cbn [app]. rewrite (proj2 (blanks1_None c)); [done|]. by apply tail_stops.
    + rewrite (blanks1_app (x :: b) c); [|done|done|by apply tail_stops].
      rewrite (proj2 (span1_None is_word c)); [done|]. by apply tail_stops.
  - destruct n as [|n]; [cbn in Hlen; lia|]. cbn [more_words]. rewrite <- !app_assoc.
    rewrite blanks1_app; [|done|done|by apply blank_stops_word].
    rewrite span1_app; [|by apply Word_bool in Hw as []..|].
    + rewrite IH; [done|]. cbn in Hlen. lia.
    + apply (Words_stops ws t); [done|]. by apply word_stops_end.
Qed.
Lemma more_words_inv n t ws r : more_words n t = (ws, r) -> exists u, Words ws u /\ t = u ++ r.
Proof.
  revert t ws r. induction n as [|n IH]; intros t ws r H; cbn [more_words] in H.
  - injection H as <- <-. exists []. split; [constructor|done].
  - destruct (blanks1 t) as [t'|] eqn:Hb; [|injection H as <- <-; exists []; split; [constructor|done]].
    destruct (span1 is_word t') as [[w r']|] eqn:Hs; [|injection H as <- <-; exists []; split; [constructor|done]].
    destruct (more_words n r') as [ws' r''] eqn:Hm. injection H as <- <-. apply IH in Hm as (u & Hu & ->).
    apply blanks1_inv in Hb as (b & Hb & Hn & -> & _). apply span1_inv in Hs as (-> & Hwn & Hw & _).
    exists (b ++ w ++ u). split; [constructor; [done..|by apply Word_bool|done]|]. by rewrite <- !app_assoc.
Qed.
Lemma more_words0_end n b c : Blanks b -> Tail c -> more_words0 n (b ++ c) = ([], b ++ c).
Proof.
  intros Hb Hc. destruct n as [|n]; [done|]. cbn [more_words0]. rewrite blanks_app; [|done|by apply tail_stops].
  rewrite (proj2 (span1_None is_word c)); [done|]. by apply tail_stops.
Qed.
Lemma more_words0_words n ws u b c : Words ws u -> Blanks b -> Tail c -> length ws <= n -> more_words0 n (u ++ b ++ c) = (ws, b ++ c).
Proof.
  intros Hws Hb Hc. revert n. induction Hws as [|b1 w ws t Hb1 Hn Hw Hws IH]; intros n Hlen; [by apply (more_words0_end n b c)|].
  destruct n as [|n]; [cbn in Hlen; lia|]. cbn [more_words0]. rewrite <- !app_assoc.
  rewrite blanks_app; [|done|by apply blank_stops_word].
  rewrite span1_app; [|by apply Word_bool in Hw as []..|].
  - rewrite IH; [done|]. cbn in Hlen. lia.
  - apply (Words_stops ws t); [done|]. by apply word_stops_end.
Qed.
Lemma more_words0_app n w ws b1 u b c : Blanks b1 -> Word w -> Words ws u -> Blanks b -> Tail c -> length ws < n -> more_words0 n (b1 ++ w ++ u ++ b ++ c) = (w :: ws, b ++ c).
Proof.
  intros Hb1 Hw Hws Hb Hc Hlen. destruct n as [|n]; [lia|]. cbn [more_words0].
  rewrite blanks_app; [|done|by apply blank_stops_word].
  rewrite span1_app; [|by apply Word_bool in Hw as []..|].
  - rewrite (more_words0_words n ws u b c); [done..|lia].
  - apply (Words_stops ws u); [done|]. by apply word_stops_end.
Qed.
Lemma more_words0_inv' n t ws r : stops is_word t -> more_words0 n t = (ws, r) -> exists u, Words ws u /\ t = u ++ r.
Proof.
  revert t ws r. induction n as [|n IH]; intros t ws r Ht H; cbn [more_words0] in H.
  - injection H as <- <-. exists []. split; [constructor|done].
  - destruct (span1 is_word (blanks t)) as [[w r']|] eqn:Hs; [|injection H as <- <-; exists []; split; [constructor|done]].
    destruct (more_words0 n r') as [ws' r''] eqn:Hm. injection H as <- <-.
    destruct (blanks_inv t) as (b & Hb & Htb & _). apply span1_inv in Hs as (Hbt & Hwn & Hw & Hr). apply IH in Hm as (u & Hu & ->); [|done].
    exists (b ++ w ++ u). split.
    + constructor; [done| |by apply Word_bool|done]. intros ->. rewrite Htb, Hbt in Ht. destruct w as [|x w]; [done|]. cbn in Ht. inversion Hw; subst. congruence.
    + by rewrite Htb, Hbt, <- !app_assoc.
Qed.
Lemma more_words0_inv n t ws r : more_words0 n t = (ws, r) -> (ws = [] /\ t = r) \/ exists w ws' b u, ws = w :: ws' /\ Blanks b /\ Word w /\ Words ws' u /\ t = b ++ w ++ u ++ r.
Proof.
  destruct n as [|n]; intros H; cbn [more_words0] in H; [injection H as <- <-; by left|].
  destruct (span1 is_word (blanks t)) as [[w r']|] eqn:Hs; [|injection H as <- <-; by left].
  destruct (more_words0 n r') as [ws' r''] eqn:Hm. injection H as <- <-. right.
  destruct (blanks_inv t) as (b & Hb & Htb & _). apply span1_inv in Hs as (Hbt & Hwn & Hw & Hr). apply more_words0_inv' in Hm as (u & Hu & ->); [|done].
  exists w, ws', b, u. split_and!; [done|done|by apply Word_bool|done|]. by rewrite Htb, Hbt.
Qed.

(** ** The lines *)
Definition finish {A} (x : option (A * text)) : option A :=
  '(l, t) ← x; match t with [] => Some l | c :: _ => if decide (c = hash) then Some l else None end.
Lemma finish_tail {A} (l : A) c : Tail c -> finish (Some (l, c)) = Some l.
Proof. intros [->|[r ->]]; [done|]. cbn. by rewrite decide_True. Qed.
Lemma finish_inv {A} (l : A) x : finish x = Some l -> exists c, x = Some (l, c) /\ Tail c.
Proof.
  destruct x as [[l' t]|]; [|done]. cbn. destruct t as [|c t]; [intros [= <-]; exists []; split; [done|by left]|].
  destruct (decide (c = hash)) as [->|]; [|done]. intros [= <-]. exists (hash :: t). split; [done|]. right. by exists t.
Qed.
Lemma bind_Some' {A B} (f : A -> option B) (x : option A) y : (x ≫= f) = Some y -> exists a, x = Some a /\ f a = Some y.
Proof. destruct x as [a|]; [|done]. intros H. by exists a. Qed.
Lemma parse_gen_line_eq t : parse_gen_line t = finish (first_of gen_rules t).
Proof. done. Qed.
Lemma first_of_cons {A} (p : text -> option A) ps t : first_of (p :: ps) t = match p t with Some x => Some x | None => first_of ps t end.
Proof. done. Qed.
Lemma gen_subtask_app b n b' c : Blanks b -> Digits n -> Blanks b' -> Tail c -> gen_subtask (chars "#ST:" ++ b ++ n ++ b' ++ c) = Some (LSubtask n, c).
Proof.
  intros Hb Hn Hb' Hc. unfold gen_subtask. rewrite (literal_app (chars "#ST:")). cbn [mbind option_bind]. apply Digits_bool in Hn as [Hne Hn].
  assert (Word n) as Hw. { apply Word_bool. split; [done|]. eapply Forall_impl; [exact Hn|]. intros x. apply digit_is_word. }
  rewrite blanks_app; [|done|by apply blank_stops_word].
  rewrite span1_app; [|done|done|].
  - cbn [mbind option_bind]. rewrite blanks_app; [done|done|by apply tail_stops].
  - destruct b' as [|x b']; [by apply tail_stops|]. cbn. inversion Hb'; subst. apply not_true_iff_false. rewrite is_digit_spec. unfold Blank in *. lia.
Qed.
Lemma gen_word_app (k : string) (L : text -> gen_line) b w b' c : Blanks b -> Word w -> Blanks b' -> Tail c ->
  (t ← literal (chars k) (chars k ++ b ++ w ++ b' ++ c); '(n, t) ← span1 is_word (blanks t); Some (L n, blanks t)) = Some (L w, c).
Proof.
  intros Hb Hw Hb' Hc. rewrite literal_app. cbn [mbind option_bind].
  rewrite blanks_app; [|done|by apply blank_stops_word].
  rewrite span1_app; [|by apply Word_bool in Hw as []..|by apply word_stops_end].
  cbn [mbind option_bind]. rewrite blanks_app; [done|done|by apply tail_stops].
Qed.
Lemma not_hash_literal x t s : x <> hash -> literal (hash :: s) (x :: t) = None.
Proof. intros H. cbn [literal]. by rewrite decide_False. Qed.
(** A line that does not start with a number sign *)
Lemma first_of_plain t : (match t with [] => True | x :: _ => x <> hash end) -> first_of gen_rules t = match gen_command t with Some x => Some x | None => gen_empty t end.
Proof.
  intros Ht. unfold gen_rules. rewrite !first_of_cons.
  assert (forall s, literal (hash :: s) t = None) as Hl. { intros s. destruct t as [|x t]; [done|]. by apply not_hash_literal. }
  unfold gen_subtask, gen_name, gen_deps, gen_copy, gen_comment.
  rewrite (Hl (chars "ST:") : literal (chars "#ST:") t = None), (Hl (chars "STNAME:") : literal (chars "#STNAME:") t = None).
  rewrite (Hl (chars "STDEP:") : literal (chars "#STDEP:") t = None), (Hl (chars "COPY:") : literal (chars "#COPY:") t = None), (Hl []). cbn [mbind option_bind]. destruct (gen_command t); done.
Qed.
Lemma gen_command_app b w ws u b' c : Blanks b -> Word w -> Words ws u -> Blanks b' -> Tail c -> gen_command (b ++ w ++ u ++ b' ++ c) = Some (LCommand (w :: ws), c).
Proof.
  intros Hb Hw Hws Hb' Hc. unfold gen_command.
  assert (literal [hash] (b ++ w ++ u ++ b' ++ c) = None) as ->.
  { destruct b as [|x b].
    - destruct w as [|x w]; [by destruct Hw|]. destruct Hw as [_ Hw]. inversion Hw; subst. apply not_hash_literal. tauto.
    - inversion Hb; subst. apply not_hash_literal. unfold Blank, hash in *. lia. }
  rewrite blanks_app; [|done|by apply blank_stops_word].
  rewrite span1_app; [|by apply Word_bool in Hw as []..|].
  - cbn [mbind option_bind]. rewrite (more_words_app _ ws u b' c); [|done|done|done|].
    + rewrite blanks_app; [done|done|by apply tail_stops].
    + rewrite app_length. pose proof (Words_length _ _ Hws). lia.
  - apply (Words_stops ws u); [done|]. by apply word_stops_end.
Qed.
Lemma gen_line_complete t l : GenLine t l -> parse_gen_line t = Some l.
Proof.
  rewrite parse_gen_line_eq. intros H. destruct H as [b n b' c Hb Hn Hb' Hc|b w b' c Hb Hw Hb' Hc|b w ws u b' c Hb Hw Hws Hb' Hc|b' c Hb' Hc|b w b' c Hb Hw Hb' Hc|c r Hc|c Hc|b w ws u b' c Hb Hw Hws Hb' Hc|b c Hb Hc Hbc].
  - unfold gen_rules. rewrite first_of_cons, gen_subtask_app by done. by apply finish_tail.
  - unfold gen_rules. rewrite !first_of_cons. change (gen_subtask _) with (@None (gen_line * text)).
    unfold gen_name. rewrite (gen_word_app "#STNAME:" LName) by done. by apply finish_tail.
  - unfold gen_rules. rewrite !first_of_cons. change (gen_subtask _) with (@None (gen_line * text)). change (gen_name _) with (@None (gen_line * text)).
    unfold gen_deps. rewrite literal_app. cbn [mbind option_bind]. rewrite (more_words0_app _ w ws b u b' c); [|done..|].
    + rewrite blanks_app; [by apply finish_tail|done|by apply tail_stops].
    + rewrite !app_length. pose proof (Words_length _ _ Hws). destruct Hw as [Hw _]. destruct w; [done|]. cbn [length]. lia.
  - unfold gen_rules. rewrite !first_of_cons. change (gen_subtask _) with (@None (gen_line * text)). change (gen_name _) with (@None (gen_line * text)).
    unfold gen_deps. rewrite literal_app. cbn [mbind option_bind]. rewrite (more_words0_end _ b' c) by done.
    rewrite blanks_app; [by apply finish_tail|done|by apply tail_stops].
  - unfold gen_rules. rewrite !first_of_cons. change (gen_subtask _) with (@None (gen_line * text)). change (gen_name _) with (@None (gen_line * text)). change (gen_deps _) with (@None (gen_line * text)).
    unfold gen_copy. rewrite (gen_word_app "#COPY:" LCopy) by done. by apply finish_tail.
  - assert (gen_comment (hash :: c :: r) = Some (LComment, [])) as Hg.
    { unfold gen_comment. cbn [literal]. rewrite decide_True by done. cbn [mbind option_bind].
      destruct (blanks1 (c :: r)) eqn:H; [done|]. apply blanks1_None in H. cbn in H. apply is_blank_spec in Hc. congruence. }
    unfold gen_rules. rewrite !first_of_cons, Hg. by destruct Hc as [-> | ->].
  - by destruct Hc as [-> | [r ->]].
  - rewrite first_of_plain.
    + rewrite (gen_command_app b w ws u b' c) by done. by apply finish_tail.
    + destruct b as [|x b]; [|inversion Hb; subst; unfold Blank, hash in *; cbn; lia].
      destruct Hw as [Hn Hw]. destruct w as [|x w]; [done|]. inversion Hw; subst. cbn. tauto.
  - rewrite first_of_plain.
    + assert (gen_command (b ++ c) = None) as ->.
      { unfold gen_command. destruct (literal [hash] (b ++ c)); [done|]. rewrite blanks_app; [|done|by apply tail_stops]. rewrite (proj2 (span1_None is_word c)); [done|]. by apply tail_stops. }
      unfold gen_empty. rewrite blanks_app; [by apply finish_tail|done|by apply tail_stops].
    + destruct b as [|x b]; [by rewrite Hbc|]. inversion Hb; subst; unfold Blank, hash in *; cbn; lia.
Qed.
Lemma blanks_end t c : blanks t = c -> Tail c -> exists b, Blanks b /\ t = b ++ c.
Proof. intros <- _. destruct (blanks_inv t) as (b & Hb & Ht & _). by exists b. Qed.
Lemma gen_word_inv (k : string) (L : text -> gen_line) t l c :
  (t ← literal (chars k) t; '(n, t) ← span1 is_word (blanks t); Some (L n, blanks t)) = Some (l, c) -> Tail c ->
  exists b w b', l = L w /\ Blanks b /\ Word w /\ Blanks b' /\ t = chars k ++ b ++ w ++ b' ++ c.
Proof.
  intros H Hc. apply bind_Some' in H as (t' & Hl & H). apply literal_inv in Hl as ->. apply bind_Some' in H as ([w r] & Hs & H). injection H as <- H.
  apply span1_inv in Hs as (Hr & Hn & Hw & _). destruct (blanks_inv t') as (b & Hb & Ht & _). destruct (blanks_end _ _ H Hc) as (b' & Hb' & ->).
  exists b, w, b'. split_and!; [done|done|by apply Word_bool|done|]. by rewrite Ht, Hr.
Qed.
Lemma gen_line_sound t l : parse_gen_line t = Some l -> GenLine t l.
Proof.
  rewrite parse_gen_line_eq. intros (c & H & Hc)%finish_inv. unfold gen_rules in H. rewrite !first_of_cons in H.
  destruct (gen_subtask t) as [x|] eqn:H1.
  { injection H as ->. unfold gen_subtask in H1. apply bind_Some' in H1 as (t' & Hl & H1). apply literal_inv in Hl as ->. apply bind_Some' in H1 as ([n r] & Hs & H1). injection H1 as <- H1.
    apply span1_inv in Hs as (Hr & Hn & Hd & _). destruct (blanks_inv t') as (b & Hb & Ht & _). destruct (blanks_end _ _ H1 Hc) as (b' & Hb' & ->).
    rewrite Ht, Hr. constructor; [done|by apply Digits_bool|done..]. }
  destruct (gen_name t) as [x|] eqn:H2.
  { injection H as ->. apply (gen_word_inv "#STNAME:" LName) in H2 as (b & w & b' & -> & ? & ? & ? & ->); [|done]. by constructor. }
  destruct (gen_deps t) as [x|] eqn:H3.
  { injection H as ->. unfold gen_deps in H3. apply bind_Some' in H3 as (t' & Hl & H3). apply literal_inv in Hl as ->. destruct (more_words0 (length t') t') as [ws r] eqn:Hm. injection H3 as <- H3.
    destruct (blanks_end _ _ H3 Hc) as (b' & Hb' & ->). apply more_words0_inv in Hm as [[-> ->]|(w & ws' & b & u & -> & Hb & Hw & Hws & ->)]; by constructor. }
  destruct (gen_copy t) as [x|] eqn:H4.
  { injection H as ->. apply (gen_word_inv "#COPY:" LCopy) in H4 as (b & w & b' & -> & ? & ? & ? & ->); [|done]. by constructor. }
  destruct (gen_comment t) as [x|] eqn:H5.
  { injection H as ->. unfold gen_comment in H5. apply bind_Some' in H5 as (t' & Hl & H5). apply literal_inv in Hl as ->. destruct (blanks1 t') as [r|] eqn:Hb.
    - injection H5 as <- _. apply blanks1_inv in Hb as (b & Hb & Hn & -> & _). destruct b as [|x b]; [done|]. inversion Hb; subst. by constructor.
    - injection H5 as <- ->. by constructor. }
  destruct (gen_command t) as [x|] eqn:H6.
  { injection H as ->. unfold gen_command in H6. destruct (literal [hash] t); [done|]. apply bind_Some' in H6 as ([w r] & Hs & H6).
    destruct (more_words (length r) r) as [ws r'] eqn:Hm. injection H6 as <- H6. apply span1_inv in Hs as (Hr & Hn & Hw & _). apply more_words_inv in Hm as (u & Hu & ->).
    destruct (blanks_inv t) as (b & Hb & Ht & _). destruct (blanks_end _ _ H6 Hc) as (b' & Hb' & ->). rewrite Ht, Hr. constructor; [done|by apply Word_bool|done..]. }
  cbn [first_of foldr] in H. unfold gen_empty in H. injection H as <- H. destruct (blanks_end _ _ H Hc) as (b & Hb & ->). constructor; [done..|].
  intros ->. destruct Hc as [?|[r Hc]]; [done|]. exfalso. cbn [app] in *. rewrite Hc in H5. unfold gen_comment in H5. cbn [literal] in H5. rewrite decide_True in H5 by done. cbn [mbind option_bind] in H5. by destruct (blanks1 r).
Qed.
