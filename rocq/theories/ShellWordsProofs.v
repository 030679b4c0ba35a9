(** Proofs for C106. *)
From Verif Require Import ShellWordsSpec.

Lemma is_delim_spec c : is_delim c = true <-> Delim c.
Proof. unfold is_delim, Delim. rewrite !orb_true_iff, !N.eqb_eq. tauto. Qed.
Lemma escapable_spec c : escapable c = true <-> c = 36%N \/ c = 96%N \/ c = 34%N \/ c = 92%N.
Proof. unfold escapable. rewrite !orb_true_iff, !N.eqb_eq. tauto. Qed.
Ltac chs := unfold squote, dquote, bslash, lf, hash in *.

(** ** What is written is read *)
Lemma double_read t v : InDouble t v -> forall acc s, words_from WDouble acc (t ++ s) = words_from WDouble (acc ++ v) s.
Proof.
  induction 1 as [|c t v H1 H2 _ IH|c t v Hc _ IH|t v _ IH|c t v H1 H2 H3 H4 H5 _ IH]; intros acc s; cbn [app words_from]; chs.
  - by rewrite app_nil_r.
  - rewrite !decide_False by done. rewrite IH. by rewrite <- app_assoc.
  - rewrite decide_False, decide_True by done. rewrite decide_False by (naive_solver lia). rewrite (proj2 (escapable_spec c)) by done. rewrite IH. by rewrite <- app_assoc.
  - by rewrite decide_False, !decide_True.
  - rewrite decide_False, decide_True by done. rewrite decide_False by done. destruct (escapable c) eqn:E; [apply escapable_spec in E; naive_solver|]. rewrite IH. by rewrite <- app_assoc.
Qed.
Lemma single_read t : 39%N ∉ t -> forall acc s, words_from WSingle acc (t ++ 39%N :: s) = words_from WUnquoted (acc ++ t) s.
Proof.
  induction t as [|c t IH]; intros Hn acc s; cbn [app words_from]; chs.
  - by rewrite decide_True, app_nil_r.
  - apply not_elem_of_cons in Hn as [Hc Hn]. rewrite decide_False by done. rewrite IH by done. by rewrite <- app_assoc.
Qed.
Lemma plain_read c acc s : ~ Delim c -> ~ Special c -> words_from WUnquoted acc (c :: s) = words_from WUnquoted (acc ++ [c]) s.
Proof.
  intros Hd Hs. cbn [words_from]. unfold Special in Hs. chs. rewrite !decide_False by tauto. destruct (is_delim c) eqn:E; [by apply is_delim_spec in E|done].
Qed.
Lemma piece_read p v : Piece p v -> forall acc s, words_from WUnquoted acc (p ++ s) = words_from WUnquoted (acc ++ v) s.
Proof.
  destruct 1 as [c Hd Hs|c Hc|t Ht|t v Hv]; intros acc s.
  - by apply plain_read.
  - cbn [app words_from]. chs. rewrite !decide_False, decide_True by done. by rewrite decide_False.
  - cbn [app]. rewrite <- app_assoc. cbn [app words_from]. chs. rewrite decide_True by done. by apply single_read.
  - cbn [app]. rewrite <- app_assoc. cbn [app words_from]. chs. rewrite decide_False, decide_True by done. rewrite (double_read _ _ Hv). cbn [words_from]. chs. by rewrite decide_True.
Qed.
Lemma piece_start p v : Piece p v -> p <> [35%N] -> forall s, words_from WDelimiter [] (p ++ s) = words_from WUnquoted v s.
Proof.
  destruct 1 as [c Hd Hs|c Hc|t Ht|t v Hv]; intros Hne s.
  - cbn [app words_from]. unfold Special in Hs. chs. rewrite !decide_False by tauto. destruct (is_delim c) eqn:E; [by apply is_delim_spec in E|]. rewrite decide_False by congruence. done.
  - cbn [app words_from]. chs. rewrite !decide_False, decide_True by done. by rewrite decide_False.
  - cbn [app]. rewrite <- app_assoc. cbn [app words_from]. chs. rewrite decide_True by done. by apply (single_read t Ht []).
  - cbn [app]. rewrite <- app_assoc. cbn [app words_from]. chs. rewrite decide_False, decide_True by done. rewrite (double_read _ _ Hv). cbn [words_from]. chs. by rewrite decide_True.
Qed.
Lemma pieces_read p v : Pieces p v -> forall acc s, words_from WUnquoted acc (p ++ s) = words_from WUnquoted (acc ++ v) s.
Proof.
  induction 1 as [|p v t vs Hp _ IH|t vs _ IH]; intros acc s.
  - by rewrite app_nil_r.
  - rewrite <- app_assoc, (piece_read _ _ Hp), IH. by rewrite <- app_assoc.
  - cbn [app words_from]. chs. rewrite !decide_False, decide_True by done. rewrite decide_True by done. apply IH.
Qed.
Lemma written_read p v : Written p v -> forall s, words_from WDelimiter [] (p ++ s) = words_from WUnquoted v s.
Proof. destruct 1 as [p v t vs Hp Hne Ht]. intros s. rewrite <- app_assoc, (piece_start _ _ Hp Hne). by apply pieces_read. Qed.
Lemma delim_step c s : Delim c -> words_from WDelimiter [] (c :: s) = words_from WDelimiter [] s.
Proof. intros [-> |[-> | ->]]; done. Qed.
Lemma delim_end c v s : Delim c -> words_from WUnquoted v (c :: s) = ws ← words_from WDelimiter [] s; Some (v :: ws).
Proof. intros [-> |[-> | ->]]; done. Qed.
Lemma comment_read c s : 10%N ∉ c -> words_from WComment [] (c ++ 10%N :: s) = words_from WDelimiter [] s /\ words_from WComment [] c = Some [].
Proof.
  induction c as [|x c IH]; intros Hn; [done|]. apply not_elem_of_cons in Hn as [Hx Hn]. cbn [app words_from]. chs. rewrite !decide_False by done. by apply IH.
Qed.
Lemma shell_read t ws : ShellText t ws -> shell_words t = Some ws.
Proof.
  unfold shell_words. induction 1 as [|c t ws Hc _ IH|t ws _ IH|c t ws Hc _ IH|c Hc|p v c t ws Hw Hc _ IH|p v Hw|p v Hw|].
  - done.
  - by rewrite delim_step.
  - exact IH.
  - change (words_from WComment [] (c ++ 10%N :: t) = Some ws). by rewrite (proj1 (comment_read c t Hc)).
  - change (words_from WComment [] c = Some []). by apply (comment_read c []).
  - rewrite (written_read _ _ Hw), delim_end, IH by done. done.
  - rewrite <- (app_nil_r p). by rewrite (written_read _ _ Hw).
  - by rewrite (written_read _ _ Hw).
  - done.
Qed.

(** ** What is read was written *)
Definition Tail (word t : text) (ws : list text) : Prop :=
  (exists p v c t' ws', t = p ++ c :: t' /\ Pieces p v /\ Delim c /\ ShellText t' ws' /\ ws = (word ++ v) :: ws') \/
  (exists v, Pieces t v /\ ws = [word ++ v]) \/
  (exists p v, t = p ++ [92%N] /\ Pieces p v /\ ws = [word ++ v ++ [92%N]]).
Lemma tail_piece p v word t ws : Piece p v -> Tail (word ++ v) t ws -> Tail word (p ++ t) ws.
Proof.
  intros Hp [(q & u & c & t' & ws' & -> & Hq & Hc & Ht & ->)|[(u & Hu & ->)|(q & u & -> & Hq & ->)]].
  - left. exists (p ++ q), (v ++ u), c, t', ws'. rewrite <- !app_assoc. split_and!; [done|by constructor|done..].
  - right; left. exists (v ++ u). rewrite <- app_assoc. split; [by constructor|done].
  - right; right. exists (p ++ q), (v ++ u). rewrite <- !app_assoc. split_and!; [done|by constructor|done].
Qed.
Lemma tail_newline word t ws : Tail word t ws -> Tail word (92%N :: 10%N :: t) ws.
Proof.
  intros [(q & u & c & t' & ws' & -> & Hq & Hc & Ht & ->)|[(u & Hu & ->)|(q & u & -> & Hq & ->)]].
  - left. exists (92%N :: 10%N :: q), u, c, t', ws'. split_and!; [done|by constructor|done..].
  - right; left. exists u. split; [by constructor|done].
  - right; right. exists (92%N :: 10%N :: q), u. split_and!; [done|by constructor|done].
Qed.
Lemma tail_start p v t ws : Piece p v -> p <> [35%N] -> Tail v t ws -> ShellText (p ++ t) ws.
Proof.
  intros Hp Hne [(q & u & c & t' & ws' & -> & Hq & Hc & Ht & ->)|[(u & Hu & ->)|(q & u & -> & Hq & ->)]].
  - rewrite (app_assoc p). apply ST_word; [by constructor|done..].
  - apply ST_last. by constructor.
  - rewrite (app_assoc p), (app_assoc v). apply ST_last_backslash. by constructor.
Qed.
Lemma comment_cons c t ws : c <> 10%N -> ShellText (35%N :: t) ws -> ShellText (35%N :: c :: t) ws.
Proof.
  intros Hc H. remember (35%N :: t) as s eqn:Hs. destruct H as [|d t' ws Hd _|t' ws _|k t' ws Hk Ht|k Hk|p v d t' ws Hw _ _|p v Hw|p v Hw|].
  - done.
  - injection Hs as -> ->. exfalso. by destruct Hd as [?|[?|?]].
  - done.
  - injection Hs as <-. apply (ST_comment (c :: k)); [|done]. apply not_elem_of_cons. by split.
  - injection Hs as ->. apply ST_last_comment. apply not_elem_of_cons. by split.
  - exfalso. destruct Hw as [p v ? ? Hp Hne _]. destruct Hp; cbn in Hs; try done. injection Hs as -> _. by destruct Hne.
  - exfalso. destruct Hw as [p v ? ? Hp Hne _]. destruct Hp; cbn in Hs; try done. injection Hs as -> _. by destruct Hne.
  - exfalso. destruct Hw as [p v ? ? Hp Hne _]. destruct Hp; cbn in Hs; try done. injection Hs as -> _. by destruct Hne.
  - done.
Qed.
Definition Meaning (st : words_state) (word t : text) (ws : list text) : Prop :=
  match st with
  | WDelimiter => word = [] -> ShellText t ws
  | WBackslash => word = [] -> ShellText (92%N :: t) ws
  | WComment => word = [] -> ShellText (35%N :: t) ws
  | WUnquoted => Tail word t ws
  | WUnquotedBackslash => Tail word (92%N :: t) ws
  | WSingle => exists s t', t = s ++ 39%N :: t' /\ 39%N ∉ s /\ Tail (word ++ s) t' ws
  | WDouble => exists s v t', t = s ++ 34%N :: t' /\ InDouble s v /\ Tail (word ++ v) t' ws
  | WDoubleBackslash => exists s v t', 92%N :: t = s ++ 34%N :: t' /\ InDouble s v /\ Tail (word ++ v) t' ws
  end.
Lemma shell_meaning t : forall st word ws, words_from st word t = Some ws -> Meaning st word t ws.
Proof.
  induction t as [|c t IH]; intros st word ws H.
  { destruct st; cbn [words_from] in H; try done; injection H as <-; cbn [Meaning]; try intros ->.
    - constructor.
    - apply ST_backslash.
    - right; left. exists []. split; [constructor|by rewrite app_nil_r].
    - right; right. exists [], []. split_and!; [done|constructor|done].
    - by apply ST_last_comment, not_elem_of_nil. }
  destruct st; cbn [words_from] in H; chs; cbn [Meaning].
  - intros ->. case_decide as H1; [|case_decide as H2; [|case_decide as H3; [|destruct (is_delim c) eqn:H4; [|case_decide as H5]]]].
    + apply IH in H as (s & t' & -> & Hs & HT). subst c. rewrite cons_middle, app_assoc. cbn [app]. change (ShellText ((39%N :: s ++ [39%N]) ++ t') ws). by apply (tail_start _ s); [by constructor| |].
    + apply IH in H as (s & v & t' & -> & Hs & HT). subst c. rewrite cons_middle, app_assoc. change (ShellText ((34%N :: s ++ [34%N]) ++ t') ws). by apply (tail_start _ v); [by constructor| |].
    + apply IH in H. subst c. by apply H.
    + apply is_delim_spec in H4. apply IH in H. apply ST_delim; [done|]. by apply H.
    + apply IH in H. subst c. by apply H.
    + apply IH in H. apply (tail_start [c] [c]); [|congruence|done]. constructor; [|unfold Special; tauto]. intros Hd. apply is_delim_spec in Hd. congruence.
  - intros ->. case_decide as H1.
    + subst c. apply ST_newline. by apply (IH WDelimiter [] ws H).
    + apply (tail_start [92%N; c] [c]); [by constructor|done|]. by apply IH in H.
  - case_decide as H1; [|case_decide as H2; [|case_decide as H3; [|destruct (is_delim c) eqn:H4]]].
    + apply IH in H as (s & t' & -> & Hs & HT). subst c. rewrite cons_middle, app_assoc. change (Tail word ((39%N :: s ++ [39%N]) ++ t') ws). apply (tail_piece _ s); [by constructor|done].
    + apply IH in H as (s & v & t' & -> & Hs & HT). subst c. rewrite cons_middle, app_assoc. change (Tail word ((34%N :: s ++ [34%N]) ++ t') ws). apply (tail_piece _ v); [by constructor|done].
    + apply IH in H. subst c. exact H.
    + apply is_delim_spec in H4. destruct (words_from WDelimiter [] t) as [ws'|] eqn:Hw; [|done]. injection H as <-. left. exists [], [], c, t, ws'. split_and!; [done|constructor|done|by apply (IH WDelimiter [])|by rewrite app_nil_r].
    + apply IH in H. apply (tail_piece [c] [c]); [|done]. constructor; [|unfold Special; tauto]. intros Hd. apply is_delim_spec in Hd. congruence.
  - case_decide as H1.
    + subst c. apply tail_newline. by apply IH in H.
    + apply (tail_piece [92%N; c] [c]); [by constructor|]. by apply IH in H.
  - case_decide as H1.
    + subst c. apply IH in H. exists [], t. split_and!; [done|by apply not_elem_of_nil|by rewrite app_nil_r].
    + apply IH in H as (s & t' & -> & Hs & HT). exists (c :: s), t'. split_and!; [done|apply not_elem_of_cons; by split|]. by rewrite <- app_assoc in HT.
  - case_decide as H1; [|case_decide as H2].
    + subst c. apply IH in H. exists [], [], t. split_and!; [done|constructor|by rewrite app_nil_r].
    + subst c. by apply IH in H.
    + apply IH in H as (s & v & t' & -> & Hs & HT). exists (c :: s), (c :: v), t'. split_and!; [done|by constructor|]. by rewrite <- app_assoc in HT.
  - case_decide as H1; [|destruct (escapable c) eqn:H2].
    + subst c. apply IH in H as (s & v & t' & -> & Hs & HT). exists (92%N :: 10%N :: s), v, t'. split_and!; [done|by constructor|done].
    + apply escapable_spec in H2. apply IH in H as (s & v & t' & -> & Hs & HT). exists (92%N :: c :: s), (c :: v), t'. split_and!; [done|by constructor|]. by rewrite <- app_assoc in HT.
    + assert (~ (c = 36%N \/ c = 96%N \/ c = 34%N \/ c = 92%N)) as Hc by (intros Hc; apply escapable_spec in Hc; congruence). apply IH in H as (s & v & t' & -> & Hs & HT). exists (92%N :: c :: s), (92%N :: c :: v), t'. split_and!; [done|constructor; tauto|]. by rewrite <- app_assoc in HT.
  - intros ->. case_decide as H1.
    + subst c. apply (ST_comment [] t); [by apply not_elem_of_nil|]. by apply (IH WDelimiter [] ws H).
    + apply comment_cons; [done|]. by apply (IH WComment [] ws H).
Qed.

(** ** Consequences *)
Lemma shell_text t ws : shell_words t = Some ws <-> ShellText t ws.
Proof. split; [|apply shell_read]. intros H. by apply (shell_meaning t WDelimiter [] ws H). Qed.
Section inside.
  Context (P : N -> Prop).
  Lemma double_inside t v : InDouble t v -> Forall P t -> Forall P v.
  Proof. induction 1; intros Ht; decompose_Forall_hyps; eauto. Qed.
  Lemma piece_inside p v : Piece p v -> Forall P p -> Forall P v.
  Proof.
    destruct 1 as [c ? ?|c ?|t ?|t v Hv]; intros Hp; decompose_Forall_hyps; eauto. by eapply double_inside.
  Qed.
  Lemma pieces_inside p v : Pieces p v -> Forall P p -> Forall P v.
  Proof.
    induction 1 as [|p v t vs Hp _ IH|t vs _ IH]; intros H; [done| |].
    - apply Forall_app in H as [H1 H2]. apply Forall_app. split; [by eapply piece_inside|by apply IH].
    - decompose_Forall_hyps. by apply IH.
  Qed.
  Lemma written_inside p v : Written p v -> Forall P p -> Forall P v.
  Proof. destruct 1 as [p v t vs Hp _ Ht]. intros [H1 H2]%Forall_app. apply Forall_app. split; [by eapply piece_inside|by eapply pieces_inside]. Qed.
  Lemma shell_inside t ws : ShellText t ws -> Forall P t -> Forall (Forall P) ws.
  Proof.
    induction 1 as [|c t ws Hc _ IH|t ws _ IH|c t ws Hc _ IH|c Hc|p v c t ws Hw Hc _ IH|p v Hw|p v Hw|]; intros H.
    - constructor.
    - decompose_Forall_hyps. by apply IH.
    - decompose_Forall_hyps. by apply IH.
    - apply Forall_cons in H as [_ H]. apply Forall_app in H as [_ H]. apply Forall_cons in H as [_ H]. by apply IH.
    - constructor.
    - apply Forall_app in H as [H1 H2]. apply Forall_cons in H2 as [_ H2]. constructor; [by eapply written_inside|by apply IH].
    - constructor; [by eapply written_inside|constructor].
    - apply Forall_app in H as [H1 H2]. constructor; [|constructor]. apply Forall_app. split; [by eapply written_inside|done].
    - constructor; [exact H|constructor].
  Qed.
End inside.

Lemma simple_pieces w : Forall (fun c => ~ Delim c /\ ~ Special c) w -> Pieces w w.
Proof. induction 1 as [|c w [H1 H2] _ IH]; [constructor|]. apply (PS_piece [c] [c]); [by constructor|done]. Qed.
Lemma simple_written w : Simple w -> Written w w.
Proof.
  intros (Hne & Hf & Hh). destruct w as [|c w]; [done|]. apply Forall_cons in Hf as [[H1 H2] Hf]. apply (written_word [c] [c]); [by constructor| |by apply simple_pieces]. intros [= ->]. by apply Hh.
Qed.
Lemma quoted_written w : Written (single_quoted w) w.
Proof.
  unfold single_quoted. 
  assert (exists p v t vs, 39%N :: concat (map (fun c => if (c =? 39)%N then [39%N; 92%N; 39%N; 39%N] else [c]) w) ++ [39%N] = (39%N :: p ++ [39%N]) ++ t /\ w = v ++ vs /\ p = v /\ 39%N ∉ p /\ Pieces t vs) as (p & v & t & vs & -> & -> & -> & Hp & Ht).
  { induction w as [|c w (p & v & t & vs & E & -> & -> & Hp & Ht)].
    - exists [], [], [], []. split_and!; try done; [by apply not_elem_of_nil|constructor].
    - cbn [map concat]. destruct (c =? 39)%N eqn:Ec.
      + apply N.eqb_eq in Ec as ->. exists [], [], ([92%N; 39%N] ++ (39%N :: v ++ [39%N]) ++ t), ([39%N] ++ v ++ vs). split_and!; [|done|done|by apply not_elem_of_nil|].
        * cbn [app] in E |- *. injection E as E. by rewrite E.
        * apply PS_piece; [by constructor|]. apply PS_piece; [by constructor|done].
      + apply N.eqb_neq in Ec. exists (c :: v), (c :: v), t, vs. split_and!; [|done|done|by apply not_elem_of_cons|done]. cbn [app] in E |- *. injection E as E. by rewrite E. }
  apply written_word; [by constructor|done|done].
Qed.
Lemma spaced_text ps ws : Forall2 Written ps ws -> ShellText (spaced ps) ws.
Proof.
  induction 1 as [|p w ps ws Hw Hf IH]; [constructor|]. destruct Hf as [|p' w' ps ws Hw' Hf]; [by apply ST_last|]. cbn [spaced] in IH |- *. by apply ST_word; [| |exact IH]; [|left].
Qed.
