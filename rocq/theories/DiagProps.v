(** * DiagProps: C93, how a diagnostic is printed *)
From Verif Require Import DiagModel DiagSpec SpanSpec SpanProps.
From Coq Require Import Ascii String NArith Lia.
From stdpp Require Import base list strings pretty.
Local Open Scope nat_scope.

(** ** Lines *)
Lemma cut_cr_snoc l : cut_cr (l ++ [cr]) = l.
Proof. unfold cut_cr. rewrite last_snoc, decide_True by done. rewrite app_length. cbn. rewrite Nat.add_sub. by rewrite take_app. Qed.
Lemma cut_cr_other l : list.last l <> Some cr -> cut_cr l = l.
Proof. unfold cut_cr. destruct (list.last l); [|done]. intros H. rewrite decide_False; [done|congruence]. Qed.
Lemma cut_lines_cons p ps : ps <> [] -> cut_lines (p :: ps) = cut_cr p :: cut_lines ps.
Proof. by destruct ps. Qed.
Lemma str_lines_app l t : lf ∉ l -> str_lines (l ++ lf :: t) = cut_cr l :: str_lines t.
Proof. intros H. unfold str_lines. rewrite split_app_nl by done. rewrite cut_lines_cons; [done|]. apply split_on_nonempty. Qed.
Lemma str_lines_spec t ls : text_lines t ls -> str_lines t = ls.
Proof.
  induction 1 as [|l Hl Hne|l t ls Hl Hcr _ IH|l t ls Hl _ IH].
  - done.
  - unfold str_lines. rewrite split_no_nl by done. cbn. by destruct l.
  - rewrite str_lines_app by done. rewrite cut_cr_other by done. by rewrite IH.
  - replace (l ++ cr :: lf :: t) with ((l ++ [cr]) ++ lf :: t) by by rewrite <- app_assoc. rewrite str_lines_app, cut_cr_snoc, IH; [done|].
    apply not_elem_of_app. split; [done|]. by intros ?%elem_of_list_singleton.
Qed.
Lemma text_lines_total t : exists ls, text_lines t ls.
Proof.
  remember (length t) as n eqn:En. revert t En. induction (Nat.lt_wf_0 n) as [n _ IH]. intros t ->.
  destruct (split_on lf t) as [|p ps] eqn:E; [by destruct (split_on_nonempty lf t)|].
  apply split_cons_inv in E as [Hp [[-> ->]|(rest & -> & _)]].
  - destruct p; [by eexists; constructor|]. eexists. by constructor.
  - destruct (IH (length rest)) with (t := rest) as [ls Hls]; [rewrite app_length; cbn; lia|done|].
    destruct (decide (list.last p = Some cr)) as [H|H]; [|by exists (p :: ls); constructor].
    apply last_Some in H as [l ->]. exists (l :: ls). rewrite <- app_assoc. apply lines_crlf; [|done]. by apply not_elem_of_app in Hp as [? _].
Qed.
(** Every text has one list of lines *)
Theorem C93_lines t : exists ls, text_lines t ls /\ forall ls', text_lines t ls' -> ls' = ls.
Proof. destruct (text_lines_total t) as [ls H]. exists ls. split; [done|]. intros ls' H'. rewrite <- (str_lines_spec _ _ H). by rewrite <- (str_lines_spec _ _ H'). Qed.
Lemma text_lines_no_lf t ls : text_lines t ls -> Forall (fun l => lf ∉ l) ls.
Proof. induction 1; by repeat constructor. Qed.
Lemma text_lines_nonempty t ls : text_lines t ls -> t <> [] -> ls <> [].
Proof. by destruct 1. Qed.

(** ** Rows *)
Definition ends (rows : list byte_text) : byte_text := concat (map writeln rows).
Lemma split_ends rows : Forall (fun l => lf ∉ l) rows -> split_on lf (ends rows) = rows ++ [[]].
Proof.
  unfold ends. induction 1 as [|l rows Hl _ IH]; [done|]. cbn [map concat]. unfold writeln at 1. rewrite <- app_assoc. change ([newline_byte] ++ ?x) with (lf :: x).
  rewrite split_app_nl by done. by rewrite IH.
Qed.
Lemma ends_app a b : ends (a ++ b) = ends a ++ ends b.
Proof. unfold ends. by rewrite map_app, concat_app. Qed.
Lemma no_lf_spaces n : lf ∉ spaces n.
Proof. by apply replicate_no_nl. Qed.
Lemma no_lf_right w t : lf ∉ t -> lf ∉ at_right w t.
Proof. intros H. apply not_elem_of_app. split; [apply no_lf_spaces|done]. Qed.
Lemma no_lf_numbered w i l : lf ∉ l -> lf ∉ numbered w i l.
Proof.
  intros H. unfold numbered. rewrite !not_elem_of_app. split; [apply no_lf_right; apply show_nat_no_nl|]. split; [apply (bool_decide_unpack _); vm_compute; exact Logic.I|done].
Qed.
Lemma concat_imap_ends (f : nat -> byte_text -> byte_text) ls : concat (imap (fun i l => writeln (f i l)) ls) = ends (imap f ls).
Proof. unfold ends. f_equal. revert f. induction ls as [|l ls IH]; intros f; [done|]. rewrite !imap_cons. cbn [map]. f_equal. exact (IH (fun i => f (S i))). Qed.
Lemma imap_ext' {A} (f g : nat -> A -> byte_text) ls : (forall i x, f i x = g i x) -> imap f ls = imap g ls.
Proof. intros H. apply imap_ext. intros. apply H. Qed.
Lemma attachment_line_eq w i l : attachment_line w i l = writeln (numbered w i l).
Proof. unfold attachment_line, numbered. f_equal. replace (i + 1) with (S i) by lia. done. Qed.
Lemma imap_no_lf w k ls : Forall (fun l => lf ∉ l) ls -> Forall (fun l => lf ∉ l) (imap (fun i => numbered w (k + i)) ls).
Proof.
  intros H. apply Forall_lookup. intros i x Hx. rewrite list_lookup_imap in Hx. apply fmap_Some in Hx as (y & Hy & ->). apply no_lf_numbered. by eapply Forall_lookup_1 in H.
Qed.
Lemma print_attachment_rows w t ls : text_lines t ls -> exists rows, print_attachment w t = ends rows /\ attachment_rows w ls rows /\ Forall (fun l => lf ∉ l) rows.
Proof.
  intros H. pose proof (text_lines_no_lf _ _ H) as Hno. unfold print_attachment. rewrite (str_lines_spec _ _ H). cbv zeta. case_decide as Hlt.
  - exists (imap (fun i => numbered w (0 + i)) (take 5 ls) ++ [at_right w (str "...") ++ str " |"] ++ imap (fun i => numbered w (length ls - 5 + i)) (drop (length ls - 5) ls)).
    split; [|split].
    + rewrite !ends_app. rewrite <- !concat_imap_ends.
      assert (ends [at_right w (str "...") ++ str " |"] = writeln (pad_left w (chars "...") ++ chars " |")) as -> by (unfold ends; cbn [map concat]; by rewrite app_nil_r).
      assert (imap (attachment_line w) (take 5 ls) = imap (fun i l => writeln (numbered w (0 + i) l)) (take 5 ls)) as -> by (apply imap_ext; intros; by rewrite attachment_line_eq).
      do 3 f_equal. apply imap_ext. intros. by rewrite attachment_line_eq.
    + right. split; [lia|]. split; [rewrite !app_length, !imap_length, take_length, drop_length; cbn [length]; lia|].
      assert (length (imap (fun i => numbered w (0 + i)) (take 5 ls)) = 5) as H5 by (rewrite imap_length, take_length; lia).
      split; [|split].
      * rewrite lookup_app_r by lia. by rewrite H5.
      * intros i l Hi Hl. rewrite lookup_app_l by lia. rewrite list_lookup_imap, lookup_take by done. by rewrite Hl.
      * intros k l Hk Hl. rewrite lookup_app_r by lia. rewrite H5. replace (6 + k - 5) with (S k) by lia. change ([?x] ++ ?y) with (x :: y). rewrite lookup_cons_ne_0 by done. cbn [Nat.pred]. rewrite list_lookup_imap, lookup_drop. by rewrite Hl.
    + apply Forall_app. split; [by apply imap_no_lf, Forall_take|]. apply Forall_app. split; [|by apply imap_no_lf, Forall_drop]. constructor; [|done].
      apply not_elem_of_app. split; [apply no_lf_right|]; apply (bool_decide_unpack _); vm_compute; exact Logic.I.
  - exists (imap (fun i => numbered w (0 + i)) ls). split; [|split; [|by apply imap_no_lf]].
    + rewrite <- concat_imap_ends. f_equal. apply imap_ext. intros. by rewrite attachment_line_eq.
    + left. split; [lia|]. split; [by rewrite imap_length|]. intros i l Hl. by rewrite list_lookup_imap, Hl.
Qed.
Lemma print_note_rows w t ls : text_lines t ls -> t <> [] -> print_note w t = ends (note_rows w ls) /\ Forall (fun l => lf ∉ l) (note_rows w ls).
Proof.
  intros H Hne. pose proof (text_lines_nonempty _ _ H Hne) as Hls. pose proof (text_lines_no_lf _ _ H) as Hno. unfold print_note. rewrite (str_lines_spec _ _ H).
  destruct ls as [|l ls]; [done|]. apply Forall_cons in Hno as [Hl Hno]. cbn [note_rows]. split.
  - unfold ends. cbn [map concat]. unfold writeln at 1 3. rewrite <- !app_assoc. do 4 f_equal. rewrite map_map. f_equal. apply map_ext. intros x. unfold spaces.
    rewrite replicate_add, <- app_assoc. done.
  - constructor.
    + rewrite !not_elem_of_app. split; [apply no_lf_right; apply (bool_decide_unpack _); vm_compute; exact Logic.I|]. split; [apply (bool_decide_unpack _); vm_compute; exact Logic.I|done].
    + apply Forall_map. eapply Forall_impl; [exact Hno|]. intros x Hx. apply not_elem_of_app. split; [apply no_lf_spaces|done].
Qed.
(** A diagnostic is printed as whole lines: the level and the message, the lines of the note in one column, the help, the lines of the attachment (the first and the last five if they are
    more than eleven) with their numbers, and the lines of the spans, moved to the right of the level *)
Theorem C93_printed d nls als : lf ∉ dg_message d ->
  match dg_note d with Some n => n <> [] /\ text_lines n nls | None => nls = [] end ->
  match dg_help d with Some h => lf ∉ h | None => True end ->
  match dg_attachment d with Some a => text_lines a als | None => als = [] end ->
  let w := String.length (level_str (dg_level d)) in
  exists rows spans, attachment_rows w als rows /\ Forall2 (fun s ls => text_lines (span_show s) ls) (dg_spans d) spans /\
  split_on lf (print_diag d) =
    [str (level_str (dg_level d)) ++ str ": " ++ dg_message d] ++ note_rows w nls ++
    match dg_help d with Some h => [at_right w (str "Help") ++ str ": " ++ h] | None => [] end ++
    rows ++ concat (map (map (fun l => spaces (w + 2) ++ l)) spans) ++ [[]].
Proof.
  intros Hm Hn Hh Ha w.
  assert (exists rows, match dg_attachment d with Some a => print_attachment w a | None => [] end = ends rows /\ attachment_rows w als rows /\ Forall (fun l => lf ∉ l) rows) as (rows & Er & Hrows & Hnr).
  { destruct (dg_attachment d) as [a|]; [by apply print_attachment_rows|]. subst als. exists []. split; [done|]. split; [|done]. left. split; [cbn; lia|]. split; [done|]. intros i l Hl. by rewrite lookup_nil in Hl. }
  assert (exists spans, Forall2 (fun s ls => text_lines (span_show s) ls) (dg_spans d) spans /\
    concat (map (fun s => concat (map (fun l => writeln (replicate (w + 1) " "%char ++ chars " " ++ l)) (str_lines (span_show s)))) (dg_spans d)) =
      ends (concat (map (map (fun l => spaces (w + 2) ++ l)) spans)) /\ Forall (fun l => lf ∉ l) (concat (map (map (fun l => spaces (w + 2) ++ l)) spans))) as (spans & Hs & Es & Hns).
  { clear. induction (dg_spans d) as [|s ss (spans & Hs & Es & Hns)]; [exists []; split; [constructor|split; [done|constructor]]|]. destruct (text_lines_total (span_show s)) as [ls Hls]. exists (ls :: spans). split; [by constructor|].
    cbn [map concat]. rewrite Es, ends_app, (str_lines_spec _ _ Hls). split.
    - f_equal. unfold ends. rewrite map_map. f_equal. apply map_ext. intros l. f_equal. unfold spaces. replace (w + 2) with (w + 1 + 1) by lia. by rewrite (replicate_add (w + 1) 1), <- app_assoc.
    - apply Forall_app. split; [|done]. apply Forall_map. eapply Forall_impl; [by eapply text_lines_no_lf|]. intros x Hx. apply not_elem_of_app. split; [apply no_lf_spaces|done]. }
  assert (match dg_note d with Some note => print_note w note | None => [] end = ends (note_rows w nls) /\ Forall (fun l => lf ∉ l) (note_rows w nls)) as [En Hnn].
  { destruct (dg_note d) as [n|]; [destruct Hn as [Hne Hn]; by apply print_note_rows|subst nls; split; [done|constructor]]. }
  set (H := match dg_help d with Some h => [at_right w (str "Help") ++ str ": " ++ h] | None => [] end).
  assert (match dg_help d with Some help => writeln (pad_left w (chars "Help") ++ chars ": " ++ help) | None => [] end = ends H /\ Forall (fun l => lf ∉ l) H) as [Eh Hnh].
  { unfold H. destruct (dg_help d) as [h|]; [|done]. split; [unfold ends; cbn [map concat]; by rewrite app_nil_r|]. constructor; [|done]. rewrite !not_elem_of_app.
    split; [apply no_lf_right; apply (bool_decide_unpack _); vm_compute; exact Logic.I|]. split; [apply (bool_decide_unpack _); vm_compute; exact Logic.I|done]. }
  exists rows, spans. split; [done|]. split; [done|]. unfold print_diag. fold w. rewrite Er, Es, En, Eh.
  set (T := [str (level_str (dg_level d)) ++ str ": " ++ dg_message d]).
  change (writeln (chars (level_str (dg_level d)) ++ chars ": " ++ dg_message d)) with (writeln (str (level_str (dg_level d)) ++ str ": " ++ dg_message d)).
  replace (writeln (str (level_str (dg_level d)) ++ str ": " ++ dg_message d)) with (ends T) by (unfold ends, T; cbn [map concat]; by rewrite app_nil_r).
  rewrite <- !ends_app, split_ends; [by rewrite <- !app_assoc|]. rewrite !Forall_app. split_and!; try done. constructor; [|done]. rewrite !not_elem_of_app.
  split; [destruct (dg_level d); apply (bool_decide_unpack _); vm_compute; exact Logic.I|]. split; [apply (bool_decide_unpack _); vm_compute; exact Logic.I|done].
Qed.
(** An empty note: the help is on the line of the note *)
Theorem C93_empty_note_refuted :
  split_on lf (print_diag (Diagnostic DError (chars "The task is broken") (Some []) (Some (chars "Fix it")) None [])) = [chars "Error: The task is broken"; chars " Note:  Help: Fix it"; []].
Proof. vm_compute. reflexivity. Qed.
(** A warning with a note of two lines, an attachment of twelve lines and a span *)
Definition abc : list byte_text := map (fun c => [c]) (chars "abcdefghijkl").
Theorem C93_example : exists s, span_of (chars "gen/GEN") (chars "#ST: 10" ++ lf :: chars "a") 5 2 = inl s /\
  split_on lf (print_diag (Diagnostic DWarning (chars "Odd") (Some (chars "one" ++ cr :: lf :: chars "two")) None (Some (ends abc)) [s])) =
  [chars "Warning: Odd"; chars "   Note: one"; chars "         two"; chars "      1 | a"; chars "      2 | b"; chars "      3 | c"; chars "      4 | d"; chars "      5 | e"; chars "    ... |";
   chars "      8 | h"; chars "      9 | i"; chars "     10 | j"; chars "     11 | k"; chars "     12 | l"; chars "         gen/GEN:1:5"; chars "         1 | #ST: 10"; chars "                  ^^"; []].
Proof. eexists. split; [vm_compute; reflexivity|]. vm_compute. reflexivity. Qed.

Print Assumptions C93_lines.
Print Assumptions C93_printed.
Print Assumptions C93_empty_note_refuted.
Print Assumptions C93_example.
