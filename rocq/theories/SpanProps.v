(** * SpanProps: C92, the spans of code *)
From Verif Require Import SpanModel SpanSpec.
From Coq Require Import Ascii String NArith Lia.
From stdpp Require Import base list strings pretty.
Local Open Scope nat_scope.
Notation newline := ("010"%char).

Lemma add_sub_l n m : n + m - n = m.
Proof. lia. Qed.
Lemma split_on_nonempty sep l : split_on sep l <> [].
Proof. destruct l as [|c l]; [done|]. cbn. destruct (decide _); [done|]. by destruct (split_on sep l). Qed.
Lemma split_cons_inv l p ps : split_on newline l = p :: ps ->
  newline ∉ p /\ ((ps = [] /\ l = p) \/ exists rest, l = p ++ newline :: rest /\ split_on newline rest = ps).
Proof.
  revert p ps. induction l as [|c l IH]; intros p ps H; cbn [split_on] in H.
  - injection H as <- <-. split; [apply not_elem_of_nil|by left].
  - destruct (decide (c = newline)) as [->|Hc].
    + injection H as <- <-. split; [apply not_elem_of_nil|]. right. by exists l.
    + destruct (split_on newline l) as [|q qs] eqn:E; [by destruct (split_on_nonempty newline l)|]. injection H as <- <-.
      destruct (IH q qs eq_refl) as [Hq Hcase]. split; [apply not_elem_of_cons; done|].
      destruct Hcase as [[-> ->]|(rest & -> & Hr)]; [by left|right]. by exists rest.
Qed.
Lemma newlines_app a b : newlines (a ++ b) = newlines a + newlines b.
Proof. unfold newlines. by rewrite filter_app, app_length. Qed.
Lemma newlines_none a : newline ∉ a -> newlines a = 0.
Proof.
  intros H. unfold newlines. induction a as [|c a IH]; [done|]. apply not_elem_of_cons in H as [H1 H2]. rewrite filter_cons_False by done. by apply IH.
Qed.
Lemma last_snoc_nl (a : list ascii) : list.last (a ++ [newline]) = Some newline.
Proof. by rewrite last_app. Qed.

(** what the loop does *)
Lemma span_from_spec file len offset : forall lines before rest skipped,
  split_on newline rest = lines -> (before = [] \/ list.last before = Some newline) -> newlines before = skipped -> length before <= offset ->
  let content := before ++ rest in
  match span_from file lines (length before) skipped offset len with
  | inl s => on_one_line content offset len /\ cs_file s = file /\ cs_file_offset s = offset /\ cs_len s = len /\
      exists b, is_line content b (cs_line s) /\ cs_number s = S (newlines b) /\ offset = length b + cs_line_offset s /\ cs_line_offset s + len <= length (cs_line s)
  | inr _ => ~ on_one_line content offset len
  end.
Proof.
  induction lines as [|p ps IH]; intros before rest skipped Hs Hb Hn Hle content; [by destruct (split_on_nonempty newline rest)|].
  destruct (split_cons_inv rest p ps Hs) as [Hp Hcase]. cbn [span_from].
  destruct (decide (length before + length p = offset)) as [He|Hne].
  - intros [[c [Hc Hcn]] _]. unfold content in Hc. destruct Hcase as [[-> ->]|(r & -> & Hr)].
    + apply lookup_lt_Some in Hc. rewrite app_length in Hc. lia.
    + rewrite app_assoc, lookup_app_r in Hc by (rewrite app_length; lia). rewrite app_length in Hc. replace (offset - (length before + length p)) with 0 in Hc by lia. cbn in Hc. congruence.
  - destruct (decide (length before + length p < offset)) as [Hlt|Hge].
    + destruct Hcase as [[-> ->]|(r & -> & Hr)].
      * cbn [span_from]. intros [[c [Hc _]] _]. unfold content in Hc. apply lookup_lt_Some in Hc. rewrite app_length in Hc. lia.
      * specialize (IH (before ++ p ++ [newline]) r (skipped + 1) Hr). rewrite !app_length in IH. cbn [length] in IH.
        replace (length before + (length p + 1)) with (length before + (length p + 1)) in IH by lia.
        replace ((before ++ p ++ [newline]) ++ r) with content in IH by (unfold content; by rewrite <- !app_assoc). apply IH.
        -- right. rewrite app_assoc. apply last_snoc_nl.
        -- rewrite !newlines_app, (newlines_none p) by done. unfold newlines at 2. rewrite filter_cons_True by done. cbn. lia.
        -- lia.
    + cbv zeta. destruct (decide (length p < offset - length before + len)) as [Hm|Hm].
      * intros [_ H]. destruct (H (length before + length p)) as (c & Hc & Hcn); [lia|]. unfold content in Hc. destruct Hcase as [[-> ->]|(r & -> & Hr)].
        -- apply lookup_lt_Some in Hc. rewrite app_length in Hc. lia.
        -- rewrite app_assoc, lookup_app_r in Hc by (rewrite app_length; lia). rewrite app_length in Hc. replace (length before + length p - (length before + length p)) with 0 in Hc by lia. cbn in Hc. congruence.
      * cbn. assert (forall i, offset <= i < length before + length p -> exists c, content !! i = Some c /\ c <> newline) as Hin.
        { intros i Hi. assert (i - length before < length p) as Hlt by lia. apply lookup_lt_is_Some in Hlt as [c Hc]. exists c. split.
          - unfold content. rewrite lookup_app_r by lia. destruct Hcase as [[-> ->]|(r & -> & Hr)]; [done|]. by apply lookup_app_l_Some.
          - intros ->. apply Hp. by eapply elem_of_list_lookup_2. }
        split; [split; [apply Hin; lia|intros i Hi; apply Hin; lia]|]. split; [done|]. split; [done|]. split; [done|]. exists before. split; [|split; [lia|split; lia]].
        split; [done|]. split; [done|]. unfold content. destruct Hcase as [[-> ->]|(r & -> & Hr)]; [by left|right]. by exists r.
Qed.

(** A span is made of an offset and a length exactly when they are on one line, and then it knows where it is: its line is the whole line with that offset, and the number is the number of that line *)
Theorem C92_made file content offset len : (exists s, span_of file content offset len = inl s) <-> on_one_line content offset len.
Proof.
  pose proof (span_from_spec file len offset (split_on newline_byte content) [] content 0 eq_refl (or_introl eq_refl) eq_refl (Nat.le_0_l _)) as H. cbn [app length] in H.
  unfold span_of. destruct (span_from _ _ _ _ _ _) as [s|e]; split; try done.
  - intros _. apply H.
  - intros _. by exists s.
  - intros [s Hs]. done.
Qed.
Theorem C92_where file content offset len s : span_of file content offset len = inl s ->
  cs_file s = file /\ cs_file_offset s = offset /\ cs_len s = len /\
  exists before, is_line content before (cs_line s) /\ cs_number s = S (newlines before) /\ offset = length before + cs_line_offset s /\
    cs_line_offset s + len <= length (cs_line s).
Proof.
  intros E. pose proof (span_from_spec file len offset (split_on newline_byte content) [] content 0 eq_refl (or_introl eq_refl) eq_refl (Nat.le_0_l _)) as H. cbn [app length] in H.
  unfold span_of in E. rewrite E in H. by destruct H.
Qed.

(** boundaries of the line and of the file *)
Lemma continues_spec c : continues c = true <-> continuation c.
Proof. unfold continues, continuation. rewrite andb_true_iff, N.leb_le, N.ltb_lt. done. Qed.
Lemma newline_not : continues newline = false.
Proof. done. Qed.

(** texts made of whole characters, read from the left; [b]: the previous byte is an ASCII character, or there is none *)
Fixpoint whole (b : bool) (t : list ascii) : Prop :=
  match t with [] => True | c :: t => (b = true -> ~ continuation c) /\ whole (N_of_ascii c <? 128)%N t end.
Lemma whole_weaken t : whole true t -> whole false t.
Proof. destruct t; [done|]. by intros [_ H]. Qed.
Lemma whole_head b t : whole b t -> (forall c, head t = Some c -> ~ continuation c) -> whole true t.
Proof. destruct t as [|c t]; [done|]. intros [_ H] Hc. split; [intros _; by apply Hc|done]. Qed.
Lemma continuation_big c : continuation c -> (N_of_ascii c <? 128)%N = false.
Proof. intros [H _]. by apply N.ltb_ge. Qed.
Lemma whole_conts l r : Forall continuation l -> whole false r -> whole false (l ++ r).
Proof. induction 1 as [|c l Hc _ IH]; intros H; [done|]. split; [done|]. fold whole. rewrite continuation_big by done. by apply IH. Qed.
Lemma whole_tail t : forall b, whole b t -> exists l r, t = l ++ r /\ Forall continuation l /\ utf8 r /\ (b = true -> l = []).
Proof.
  induction t as [|c t IH]; intros b H; [exists [], []; split; [done|split; [done|split; [by exists []|done]]]|].
  destruct H as [Hb H]. destruct (IH _ H) as (l & r & -> & Hl & (cs & -> & Hcs) & Hnil).
  destruct (decide (continuation c)) as [Hc|Hc].
  - exists (c :: l), (concat cs). split; [done|]. split; [by constructor|]. split; [by exists cs|]. intros E. by destruct (Hb E).
  - exists [], (c :: l ++ concat cs). split; [done|]. split; [done|]. split; [|done]. exists ((c :: l) :: cs). split; [done|]. constructor; [|done].
    exists c, l. split; [done|]. split; [done|]. split; [done|]. intros Hlt. apply Hnil. by apply N.ltb_lt.
Qed.
Lemma utf8_whole t : utf8 t <-> whole true t.
Proof.
  split.
  - intros (cs & -> & Hcs). induction Hcs as [|x cs (c & l & -> & Hc & Hl & Hn) _ IH]; [done|]. cbn [concat app whole]. split; [done|].
    destruct (N_of_ascii c <? 128)%N eqn:E.
    + rewrite Hn by (by apply N.ltb_lt). done.
    + apply whole_conts; [done|by apply whole_weaken].
  - intros H. destruct (whole_tail t true H) as (l & r & -> & _ & Hr & Hl). by rewrite Hl.
Qed.
Lemma whole_drop t : forall b i, whole b t -> exists b', whole b' (drop i t).
Proof. induction t as [|c t IH]; intros b i H; [exists b; by rewrite drop_nil|]. destruct i as [|i]; [by exists b|]. destruct H as [_ H]. by apply (IH _ i) in H. Qed.
Lemma head_drop_lookup (t : list ascii) i : head (drop i t) = t !! i.
Proof. rewrite <- (Nat.add_0_r i) at 2. rewrite <- lookup_drop. by destruct (drop i t). Qed.
(** in a text made of whole characters, what follows a place is so unless it starts inside a character *)
Lemma utf8_drop t i : utf8 t -> utf8 (drop i t) <-> forall c, t !! i = Some c -> ~ continuation c.
Proof.
  intros H%utf8_whole. rewrite utf8_whole, <- head_drop_lookup. split.
  - intros Hd c Hc. destruct (drop i t) as [|d u]; [done|]. injection Hc as <-. by apply Hd.
  - intros Hc. destruct (whole_drop t true i H) as [b Hb]. by eapply whole_head.
Qed.
Lemma whole_take t : forall b i, whole b t -> whole b (take i t).
Proof. induction t as [|c t IH]; intros b i H; [by rewrite take_nil|]. destruct i as [|i]; [done|]. destruct H as [H1 H]. split; [done|by apply IH]. Qed.
Lemma whole_after_ascii a c t : forall b, (N_of_ascii c < 128)%N -> whole b (a ++ c :: t) -> whole true t.
Proof.
  induction a as [|d a IH]; intros b Hc H; [|destruct H as [_ H]; by eapply IH]. destruct H as [_ H]. cbn in H. by rewrite (proj2 (N.ltb_lt _ _) Hc) in H.
Qed.
Lemma boundary_spec t i : i <= length t -> char_boundary t i = true <-> i = 0 \/ forall c, t !! i = Some c -> ~ continuation c.
Proof.
  intros Hi. unfold char_boundary. destruct (t !! i) as [c|] eqn:E.
  - pose proof (continues_spec c) as Hc. destruct (continues c); cbn.
    + rewrite orb_false_r, bool_decide_eq_true. split; [by left|]. intros [->|H]; [done|]. exfalso. apply (H c eq_refl). by apply Hc.
    + rewrite orb_true_r. split; [|done]. intros _. right. intros d [= <-] Hd. by apply Hc in Hd.
  - apply lookup_ge_None in E. rewrite bool_decide_eq_true. split; [intros _; by right|lia].
Qed.
Lemma line_slice content before line i len : is_line content before line -> i + len <= length line ->
  take len (drop i line) = take len (drop (length before + i) content).
Proof.
  intros (_ & _ & [->|[after ->]]) Hle.
  - by rewrite drop_app_ge, add_sub_l by lia.
  - rewrite (drop_app_ge before) by lia. rewrite add_sub_l, drop_app_le by lia. rewrite take_app_le; [done|]. rewrite drop_length. lia.
Qed.
(** a place of a line is between two characters of the line exactly when it is between two characters of the file *)
Lemma line_utf8 content before line : utf8 content -> is_line content before line ->
  forall i, i <= length line -> char_boundary line i = true <-> utf8 (drop (length before + i) content).
Proof.
  intros Hu (Hn & Hb & Hc) i Hi. rewrite boundary_spec, (utf8_drop _ _ Hu) by done.
  destruct (decide (i < length line)) as [Hlt|Hge].
  - assert (content !! (length before + i) = line !! i) as ->.
    { destruct Hc as [->|[after ->]]; rewrite lookup_app_r by lia; rewrite add_sub_l; [done|]. by rewrite lookup_app_l. }
    split; [|by right]. intros [->|H] c E; [|by apply H].
    assert (exists u, content = before ++ c :: u) as [u Hu'].
    { destruct line as [|d line]; [done|]. injection E as ->. destruct Hc as [->|[after ->]]; by eexists. }
    rewrite Hu' in Hu. apply utf8_whole in Hu. destruct Hb as [->|Hlast].
    + by apply Hu.
    + apply last_Some in Hlast as [b' ->]. rewrite <- app_assoc in Hu. apply whole_after_ascii in Hu; [by apply Hu|done].
  - assert (i = length line) as -> by lia. split; [|intros _; right; intros c E; apply lookup_lt_Some in E; lia]. intros _ c E Hcont.
    destruct Hc as [->|[after ->]].
    + apply lookup_lt_Some in E. rewrite app_length in E. lia.
    + rewrite lookup_app_r, add_sub_l, lookup_app_r, Nat.sub_diag in E by lia. injection E as <-. destruct Hcont as [Hcont _]. by apply Hcont.
Qed.
(** The text of a span that is made of whole characters of the file is the text of the file there; of a span that is not, asking for the text panics *)
Theorem C92_text file content offset len s : utf8 content -> span_of file content offset len = inl s ->
  (forall a b c, content = a ++ b ++ c -> length a = offset -> length b = len -> utf8 a -> utf8 b -> utf8 c -> span_text s = Some b) /\
  ((forall a b c, content = a ++ b ++ c -> length a = offset -> length b = len -> ~ (utf8 a /\ utf8 b /\ utf8 c)) -> span_text s = None).
Proof.
  intros Hu E. destruct (C92_where _ _ _ _ _ E) as (_ & _ & Hlen & before & Hl & _ & Ho & Hle).
  assert (span_text s = Some (take len (drop offset content)) <-> utf8 (drop offset content) /\ utf8 (drop (offset + len) content)) as H.
  { unfold span_text, str_slice. rewrite Hlen. rewrite bool_decide_true by lia. rewrite add_sub_l, (line_slice _ _ _ _ _ Hl) by lia. rewrite <- Ho.
    rewrite Ho, <- Nat.add_assoc. rewrite <- !(line_utf8 content before (cs_line s)) by (done || lia). rewrite Ho in *. cbn [andb].
    destruct (char_boundary _ _); cbn [andb]; [|naive_solver]. destruct (char_boundary _ _); naive_solver. }
  assert (span_text s = Some (take len (drop offset content)) \/ span_text s = None) as Hcase.
  { unfold span_text, str_slice. rewrite Hlen, add_sub_l, (line_slice _ _ _ _ _ Hl) by lia. rewrite <- Ho. destruct (_ && _); auto. }
  split.
  - intros a b c -> Ha Hb Hua Hub Huc. assert (drop offset (a ++ b ++ c) = b ++ c) as Ed by (by rewrite drop_app_alt).
    assert (drop (offset + len) (a ++ b ++ c) = c) as Ed' by (rewrite <- drop_drop, Ed; by apply drop_app_alt).
    destruct H as [_ H]. rewrite Ed, Ed' in H. rewrite H; [by rewrite take_app_alt|]. split; [|done].
    destruct Hub as (bs & -> & Hbs), Huc as (cs & -> & Hcs). exists (bs ++ cs). split; [by rewrite concat_app|]. by apply Forall_app.
  - intros Hno. destruct Hcase as [Hs|Hs]; [|done]. exfalso. apply H in Hs as [H1 H2].
    destruct (C92_made file content offset len) as [HM _]. destruct HM as [_ Hin]; [by exists s|].
    assert (offset + len <= length content) as Hlen'.
    { destruct Hl as (_ & _ & [->|[after ->]]); rewrite !app_length; [|cbn]; lia. }
    apply (Hno (take offset content) (take len (drop offset content)) (drop (offset + len) content)).
    + rewrite <- drop_drop, take_drop. by rewrite take_drop.
    + rewrite take_length. lia.
    + rewrite take_length, drop_length. lia.
    + split; [|split; [|done]]; apply utf8_whole, whole_take; by apply utf8_whole.
Qed.

(** ** What is shown *)
Lemma split_app_nl a b : newline ∉ a -> split_on newline (a ++ newline :: b) = a :: split_on newline b.
Proof.
  intros H. induction a as [|c a IH]; cbn [app split_on]; [done|]. apply not_elem_of_cons in H as [H1 H2]. rewrite decide_False by done. by rewrite IH.
Qed.
Lemma split_no_nl a : newline ∉ a -> split_on newline a = [a].
Proof. intros H. induction a as [|c a IH]; cbn [split_on]; [done|]. apply not_elem_of_cons in H as [H1 H2]. rewrite decide_False by done. by rewrite IH. Qed.
Definition digit (c : ascii) : Prop := (48 <= N_of_ascii c < 58)%N.
Lemma digit_char n : (n < 10)%N -> digit (pretty_N_char n).
Proof. intros H. assert (n = 0 \/ n = 1 \/ n = 2 \/ n = 3 \/ n = 4 \/ n = 5 \/ n = 6 \/ n = 7 \/ n = 8 \/ n = 9)%N as Hn by lia. destruct_or! Hn; subst; split; vm_compute; done. Qed.
Lemma go_digits x : forall s, Forall digit (chars s) -> Forall digit (chars (pretty_N_go x s)).
Proof.
  induction (N.lt_wf_0 x) as [x _ IH]. intros s Hs. destruct (decide (0 < x)%N) as [Hx|Hx].
  - rewrite pretty_N_go_step by done. apply IH; [by apply N.div_lt|]. cbn. constructor; [|done]. apply digit_char. by apply N.mod_lt.
  - assert (x = 0%N) as -> by lia. by rewrite pretty_N_go_0.
Qed.
Lemma show_nat_digits n : Forall digit (show_nat n).
Proof.
  unfold show_nat, pretty, pretty_N. destruct (decide (N.of_nat n = 0%N)); [constructor; [exact (digit_char 0 eq_refl)|constructor]|]. apply go_digits. constructor.
Qed.
Lemma digit_ok c : digit c -> c <> newline /\ ~ continuation c.
Proof. unfold digit, continuation. intros H. split; [intros ->; vm_compute in H; by destruct H as [H _]|]. lia. Qed.
Lemma show_nat_no_nl n : newline ∉ show_nat n.
Proof. intros H. pose proof (proj1 (Forall_forall _ _) (show_nat_digits n) _ H) as Hd. by apply digit_ok in Hd as [Hd _]. Qed.
Lemma replicate_no_nl n c : c <> newline -> newline ∉ replicate n c.
Proof. intros H Hin. apply elem_of_replicate in Hin as [Hin _]. done. Qed.

(** A span is shown on three lines: where it is; its line, after its number; and carets, that start under the first byte of the span and are as many as its bytes (at least one) *)
Theorem C92_shown file content offset len s : newline ∉ file -> span_of file content offset len = inl s ->
  exists before after, cs_line s = before ++ take len (drop offset content) ++ after /\ length before = cs_line_offset s /\
  split_on newline (span_show s) =
    [file ++ chars ":" ++ show_nat (cs_number s) ++ chars ":" ++ show_nat (length before);
     show_nat (cs_number s) ++ chars " | " ++ before ++ take len (drop offset content) ++ after;
     replicate (length (show_nat (cs_number s) ++ chars " | " ++ before)) " "%char ++ replicate (Nat.max len 1) "^"%char; []].
Proof.
  intros Hf E. destruct (C92_where _ _ _ _ _ E) as (Hfile & _ & Hlen & b & Hl & _ & Ho & Hle).
  exists (take (cs_line_offset s) (cs_line s)), (drop (cs_line_offset s + len) (cs_line s)).
  assert (take (cs_line_offset s) (cs_line s) ++ take len (drop offset content) ++ drop (cs_line_offset s + len) (cs_line s) = cs_line s) as Hline.
  { rewrite Ho, <- (line_slice _ _ _ _ _ Hl) by lia. rewrite <- drop_drop, take_drop. apply take_drop. }
  split; [done|]. assert (length (take (cs_line_offset s) (cs_line s)) = cs_line_offset s) as Hlo by (rewrite take_length; lia).
  split; [done|]. rewrite Hline, Hlo, !app_length, Hlo. unfold span_show. rewrite Hlen, Hfile.
  pose proof (show_nat_no_nl (cs_number s)). pose proof (show_nat_no_nl (cs_line_offset s)). destruct Hl as (Hn & _ & _).
  assert (newline ∉ chars ":") as H1 by (apply (bool_decide_unpack _); vm_compute; exact Logic.I).
  assert (newline ∉ chars " | ") as H2 by (apply (bool_decide_unpack _); vm_compute; exact Logic.I).
  set (A := chars ":") in *. set (B := chars " | ") in *.
  replace (file ++ A ++ show_nat (cs_number s) ++ A ++ show_nat (cs_line_offset s) ++ [newline_byte] ++ show_nat (cs_number s) ++ B ++ cs_line s ++ [newline_byte] ++ replicate (length (show_nat (cs_number s)) + 3 + cs_line_offset s) " "%char ++ replicate (Nat.max len 1) "^"%char ++ [newline_byte])
    with ((file ++ A ++ show_nat (cs_number s) ++ A ++ show_nat (cs_line_offset s)) ++ newline :: (show_nat (cs_number s) ++ B ++ cs_line s) ++ newline :: (replicate (length (show_nat (cs_number s)) + 3 + cs_line_offset s) " "%char ++ replicate (Nat.max len 1) "^"%char) ++ [newline])
    by (rewrite <- !app_assoc; done).
  rewrite split_app_nl by (rewrite !not_elem_of_app; tauto). rewrite split_app_nl by (rewrite !not_elem_of_app; tauto).
  rewrite split_app_nl by (rewrite !not_elem_of_app; split; by apply replicate_no_nl). cbn [split_on]. change (length B) with 3. by rewrite Nat.add_assoc.
Qed.
(** The carets are under the characters of the span exactly when no byte before continues a character *)
Lemma columns_cons_true c t : ~ continuation c -> columns (c :: t) = S (columns t).
Proof. intros H. unfold columns. by rewrite filter_cons_True. Qed.
Lemma columns_cons_false c t : continuation c -> columns (c :: t) = columns t.
Proof. intros H. unfold columns. by rewrite filter_cons_False by tauto. Qed.
Lemma columns_le t : columns t <= length t.
Proof. apply filter_length. Qed.
Lemma columns_all t : columns t = length t <-> Forall (fun c => ~ continuation c) t.
Proof.
  induction t as [|c t IH]; [done|]. destruct (decide (continuation c)) as [H|H].
  - rewrite columns_cons_false by done. rewrite Forall_cons. split; [|tauto]. pose proof (columns_le t). cbn [length]. lia.
  - rewrite columns_cons_true by done. cbn [length]. rewrite Forall_cons, <- IH. split; [intros [= ?]; done|intros [_ ->]; done].
Qed.
Lemma columns_app a b : columns (a ++ b) = columns a + columns b.
Proof. unfold columns. by rewrite filter_app, app_length. Qed.
Theorem C92_aligned file content offset len s : newline ∉ file -> span_of file content offset len = inl s ->
  Forall (fun c => ~ continuation c) (cs_line s) ->
  exists place before it after, split_on newline (span_show s) = [place; before ++ it ++ after; replicate (columns before) " "%char ++ replicate (Nat.max (columns it) 1) "^"%char; []] /\
    it = take len (drop offset content).
Proof.
  intros Hf E Hascii. destruct (C92_shown _ _ _ _ _ Hf E) as (before & after & Hl & Hlo & ->). rewrite Hl in Hascii. apply Forall_app in Hascii as [Hb Ha]. apply Forall_app in Ha as [Hi _].
  destruct (C92_where _ _ _ _ _ E) as (_ & _ & _ & b & HL & _ & Ho & Hle).
  eexists _, (show_nat (cs_number s) ++ chars " | " ++ before), (take len (drop offset content)), after. split; [|done].
  rewrite !columns_app, !(proj2 (columns_all _)); [| | |repeat constructor; intros Hc%continues_spec; by vm_compute in Hc|].
  - rewrite !app_length, <- !app_assoc. repeat f_equal.
    rewrite Ho, <- (line_slice _ _ _ _ _ HL) by lia. rewrite take_length, drop_length. lia.
  - done.
  - done.
  - eapply Forall_impl; [apply show_nat_digits|]. intros c Hc. by apply digit_ok in Hc as [_ Hc].
Qed.
(** With a character of two bytes before the span the caret is one column too far to the right *)
Definition accented : list ascii := ["195"%char; "168"%char] ++ chars " = 1;".
Theorem C92_aligned_refuted : exists s, utf8 accented /\ span_of (chars "a.py") accented 3 1 = inl s /\ span_text s = Some (chars "=") /\
  let before := chars "1 | " ++ ["195"%char; "168"%char] ++ chars " " in
  span_show s = chars "a.py:1:3" ++ [newline] ++ before ++ chars "= 1;" ++ [newline] ++ replicate (S (columns before)) " "%char ++ chars "^" ++ [newline].
Proof.
  eexists. split; [apply utf8_whole; cbn; repeat split; try done; try (intros _ Hc%continues_spec; by vm_compute in Hc)|]. split; [vm_compute; reflexivity|]. split; [vm_compute; reflexivity|].
  vm_compute. reflexivity.
Qed.
(** A file with three lines: the second word of the second line; a span that goes over the end of its line; a span in the middle of a character, whose text cannot be read *)
Definition three_lines : list ascii := chars "#ST: 10" ++ newline :: chars "a bcd" ++ newline :: chars "x".
Theorem C92_example : exists s,
  span_of (chars "GEN") three_lines 10 3 = inl s /\ cs_number s = 2 /\ cs_line_offset s = 2 /\ span_text s = Some (chars "bcd") /\
  span_show s = chars "GEN:2:2" ++ [newline] ++ chars "2 | a bcd" ++ [newline] ++ chars "      ^^^" ++ [newline] /\
  span_of (chars "GEN") three_lines 10 4 = inr Multiline /\ span_of (chars "GEN") three_lines 7 1 = inr OnNewline /\ span_of (chars "GEN") three_lines 20 1 = inr BeyondTheEnd /\
  exists s', span_of (chars "GEN") accented 1 2 = inl s' /\ span_text s' = None.
Proof. eexists. split; [vm_compute; reflexivity|]. split_and!; try (vm_compute; reflexivity). eexists. split; vm_compute; reflexivity. Qed.

Print Assumptions C92_made.
Print Assumptions C92_where.
Print Assumptions C92_text.
Print Assumptions C92_shown.
Print Assumptions C92_aligned.
Print Assumptions C92_aligned_refuted.
Print Assumptions C92_example.
