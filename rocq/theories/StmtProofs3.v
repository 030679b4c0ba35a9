(** * StmtProofs3: the format of OII *)
From Verif Require Export StmtModel StmtSpec StmtProofs StmtProofs2.
From Verif Require Import RegexProofs BookletSpec BookletProofs2 LatexSpec LatexProps.
From Coq Require Import Ascii String NArith Lia.
From stdpp Require Import base list.
Local Open Scope nat_scope.

(** ** [\phantom] in one line *)
Definition phantom_with (nb : ascii -> bool) : re := RSeq (RChar backslash) (lit "phantom{" (RSeq (RPlus nb) (RChar "}"%char))).
Definition oii_with (nb : ascii -> bool) : re :=
  RSeq (RChar "{"%char) (RSeq (RGroup 1 (lit "Subtask " (RGroup 2 (RPlus is_digit)))) (RSeq (RChar "}"%char) (RSeq (RStar is_blank) (RSeq (RChar "["%char)
    (RSeq (RGroup 3 (RSeq (ROpt (phantom_with nb)) (RSeq (RGroup 4 (RPlus is_digit)) (RStar dot)))) (RChar "]"%char)))))).
Lemma oii_body_with : oii_body = oii_with not_brace.
Proof. reflexivity. Qed.
Definition not_brace_line (c : ascii) : bool := not_brace c && dot c.
Lemma closed_suffix a t : phantoms_closed (a ++ t) -> phantoms_closed t.
Proof. intros H x b ->. apply (H (a ++ x) b). by rewrite app_assoc. Qed.
Lemma run_seq_eq a a' b b' s : run a s = run a' s -> (forall (m t : text), s = m ++ t -> run b t = run b' t) -> run (RSeq a b) s = run (RSeq a' b') s.
Proof.
  intros H1 H2. cbn [run]. rewrite <- H1. assert (forall x, x ∈ run a s -> exists m, s = m ++ snd x) as H3.
  { intros [c t] H. apply run_sound in H as (m & -> & _). by exists m. }
  clear H1. induction (run a s) as [|x xs IH]; [done|]. cbn [mbind list_bind].
  destruct (H3 x) as [m Hm]; [left|]. apply (f_equal2 (@app _)); [exact (f_equal (map _) (H2 _ _ Hm))|apply IH; intros y Hy; apply H3; by right].
Qed.
Lemma star_stop p w e r : Forall (fun c => p c = true) w -> p e = false -> star p (w ++ e :: r) = map (fun x => x ++ e :: r) (star p w).
Proof. intros Hw He. induction Hw as [|c w Hc Hw IH]; cbn [app star]; [by rewrite He|]. by rewrite Hc, IH, map_app. Qed.
Lemma star_all p q w : Forall (fun c => p c = true) w -> Forall (fun c => q c = true) w -> star p w = star q w.
Proof. intros Hp. induction Hp as [|c w Hc Hw IH]; intros Hq; [done|]. apply Forall_cons in Hq as [Hc' Hq]. cbn [star]. by rewrite Hc, Hc', IH. Qed.
Lemma phantom_same s : phantoms_closed s -> run (phantom_with not_brace) s = run (phantom_with not_brace_line) s.
Proof.
  intros Hs. unfold phantom_with. 
  assert (forall k k', (forall b, s = backslash :: chars "phantom{" ++ b -> run k b = run k' b) -> run (RSeq (RChar backslash) (lit "phantom{" k)) s = run (RSeq (RChar backslash) (lit "phantom{" k')) s) as Hl.
  { intros k k' Hk. change (RSeq (RChar backslash) (lit "phantom{" ?x)) with (RText (backslash :: chars "phantom{") x). clear Hs. change (backslash :: chars "phantom{" ++ ?x) with ((backslash :: chars "phantom{") ++ x) in Hk.
    revert s Hk. generalize (backslash :: chars "phantom{"). intros w. induction w as [|c w IH]; intros s Hk; [by apply (Hk s)|]. cbn [RText run]. unfold RChar. cbn [run]. destruct s as [|d s]; [done|].
    destruct (bool_decide (d = c)) eqn:E; [|done]. apply bool_decide_eq_true in E as ->. cbn [mbind list_bind snd fst]. f_equal. rewrite (IH s); [done|]. intros b ->. by apply (Hk b). }
  apply Hl. intros b ->. destruct (Hs [] b eq_refl) as (w & r & -> & Hn & Hb). 
  assert (Forall (fun c => not_brace c = true) w) as F1. { apply Forall_forall. intros c Hc. unfold not_brace. rewrite bool_decide_false; [done|]. by intros ->. }
  assert (Forall (fun c => not_brace_line c = true) w) as F2.
  { apply Forall_forall. intros c Hc. unfold not_brace_line. rewrite Forall_forall in F1. rewrite F1 by done. pose proof (proj2 (dot_spec w) Hn) as Hd. rewrite Forall_forall in Hd. by rewrite Hd. }
  unfold RPlus. destruct w as [|c w]; [reflexivity|]. apply Forall_cons in F1 as [F1c F1]. apply Forall_cons in F2 as [F2c F2].
  apply run_seq_eq; [|done]. cbn [app]. cbn [run]. rewrite F1c, F2c. cbn [mbind list_bind snd fst]. rewrite !star_stop by done. by rewrite (star_all not_brace not_brace_line).
Qed.
Lemma oii_same s : phantoms_closed s -> run (line_re oii_body) s = run (line_re (oii_with not_brace_line)) s.
Proof.
  intros Hs. rewrite oii_body_with. unfold line_re, oii_with. apply run_seq_eq; [done|]. intros m1 t1 E1. apply run_seq_eq; [|done]. assert (phantoms_closed t1) as H1 by (rewrite E1 in Hs; by eapply closed_suffix).
  do 5 (apply run_seq_eq; [done|]; intros ? ? ->; apply closed_suffix in H1). apply run_seq_eq; [|done]. 
  assert (forall a a' n u, run a u = run a' u -> run (RGroup n a) u = run (RGroup n a') u) as Hg by (intros ? ? ? ? E; cbn [run]; by rewrite E).
  apply Hg. apply run_seq_eq; [|done]. assert (forall a a' u, run a u = run a' u -> run (ROpt a) u = run (ROpt a') u) as Ho by (intros ? ? ? E; cbn [run ROpt]; by rewrite E). apply Ho. by apply phantom_same.
Qed.
Lemma search_same s : phantoms_closed s -> search (line_re oii_body) s = search (line_re (oii_with not_brace_line)) s.
Proof.
  induction s as [|c s IH]; intros Hs; cbn [search]; rewrite (oii_same _ Hs); [done|]. destruct (run _ _); [|done]. apply IH. by apply (closed_suffix [c]).
Qed.
Lemma search_suffix r s x : search r s = Some x -> exists m, s = m ++ snd x.
Proof.
  induction s as [|c s IH]; cbn [search].
  - destruct (run r []) as [|[c t] xs] eqn:E; [done|]. intros [= <-]. assert ((c, t) ∈ run r []) as H by (rewrite E; left). apply run_sound in H as (m & Em & _). by exists m.
  - destruct (run r (c :: s)) as [|[c' t] xs] eqn:E.
    + intros H. apply IH in H as [m ->]. by exists (c :: m).
    + intros [= <-]. assert ((c', t) ∈ run r (c :: s)) as H by (rewrite E; left). apply run_sound in H as (m & Em & _). by exists m.
Qed.
Lemma captures_same s : phantoms_closed s -> captures_iter (line_re oii_body) s = captures_iter (line_re (oii_with not_brace_line)) s.
Proof.
  unfold captures_iter. generalize (S (length s)) as fuel. intros fuel. revert s. induction fuel as [|fuel IH]; intros s Hs; [done|]. cbn [captures_fuel]. rewrite <- search_same by done.
  destruct (search (line_re oii_body) s) as [x|] eqn:E; [|done]. f_equal. apply IH. apply search_suffix in E as [m ->]. by eapply closed_suffix.
Qed.

(** ** A line *)
Definition phantom_text (ph : text) : Prop := ph = [] \/ exists w, ph = backslash :: chars "phantom{" ++ w ++ ["}"%char] /\ w <> [] /\ "}"%char ∉ w.
Definition oii_text (id sp ph sc c : text) : text := "{"%char :: chars "Subtask " ++ id ++ "}"%char :: sp ++ "["%char :: ph ++ sc ++ c ++ ["]"%char].
Lemma pick_plus {B} p s (k : caps * text -> option B) : pick (run (RPlus p) s) k = match s with d :: s' => if p d then pick (star p s') (fun t => k ([], t)) else None | [] => None end.
Proof.
  unfold RPlus. rewrite pick_seq. cbn [run]. destruct s as [|d s]; [done|]. destruct (p d); [|done]. cbn [pick fst snd app]. rewrite pick_map. by destruct (pick _ _).
Qed.
Lemma pick_some_nonempty {A B} (l : list A) (k : A -> option B) x v : x ∈ l -> k x = Some v -> exists w, pick l k = Some w.
Proof. intros Hx Hk. destruct (pick l k) as [w|] eqn:E; [by exists w|]. pose proof (pick_None _ _ _ E Hx). congruence. Qed.
Lemma pick_char {B} c s (k : caps * text -> option B) : pick (run (RChar c) (c :: s)) k = k ([], s).
Proof. unfold RChar. cbn [run]. rewrite bool_decide_true by done. cbn [pick]. by destruct (k _). Qed.
Lemma plus_caps p s x : x ∈ run (RPlus p) s -> fst x = [].
Proof.
  unfold RPlus. intros Hy. apply in_rseq in Hy as (u & v & Hu & Hv & ->). cbn [run] in Hu. destruct s as [|d ds]; [by apply elem_of_nil in Hu|]. destruct (p d); [|by apply elem_of_nil in Hu].
  apply elem_of_list_singleton in Hu as ->. cbn [run] in Hv. apply elem_of_list_fmap in Hv as (q & -> & _). done.
Qed.
Lemma in_phantom s x : x ∈ run (ROpt (phantom_with not_brace_line)) s -> exists ph, s = ph ++ snd x /\ phantom_text ph /\ fst x = [].
Proof.
  unfold ROpt. intros H. cbn [run] in H. change (x ∈ run (phantom_with not_brace_line) s ++ [([], s)]) in H. apply elem_of_app in H as [H|H].
  - unfold phantom_with in H. apply in_rseq in H as (y & z & Hy & Hz & ->). apply in_char in Hy as (s' & -> & ->). cbn [snd fst app] in *. apply in_text in Hz as (b & -> & Hz).
    apply in_rseq in Hz as (y & z' & Hy & Hz & ->). cbn [fst snd] in *. pose proof Hy as Hy'. destruct y as [cy sy]. apply run_sound in Hy' as (w & -> & L). apply lang_plus_inv in L as [L Hw].
    apply in_char in Hz as (s'' & E & ->). cbn [fst snd] in *. subst sy. exists (backslash :: chars "phantom{" ++ w ++ ["}"%char]). split_and!.
    + cbn [app]. f_equal. rewrite <- !app_assoc. done.
    + right. exists w. split_and!; [done|done|]. intros Hin. rewrite Forall_forall in L. specialize (L _ Hin). by vm_compute in L.
    + apply plus_caps in Hy. cbn [fst] in Hy. by subst.
  - apply elem_of_list_singleton in H as ->. exists []. split_and!; [done|by left|done].
Qed.
Lemma phantom_matches ph : phantom_text ph -> newline ∉ ph -> matches (ROpt (phantom_with not_brace_line)) ph.
Proof.
  intros [->|(w & -> & Hw & Hb)] Hn; [apply LAltR; constructor|]. apply LAltL. unfold phantom_with. change (backslash :: ?x) with ([backslash] ++ x). constructor; [apply lang_char|]. apply lang_text. constructor; [|apply lang_char].
  apply lang_plus; [|done]. rewrite not_elem_of_cons, !not_elem_of_app in Hn. destruct Hn as (_ & _ & Hn & _). apply Forall_forall. intros c Hc. unfold not_brace_line, not_brace, dot. rewrite !bool_decide_false; [done| |]; by intros ->.
Qed.
Lemma oii_matches id sp ph sc c : number id -> number sc -> Forall (fun x => x = " "%char) sp -> phantom_text ph -> newline ∉ ph -> newline ∉ c -> matches (oii_with not_brace_line) (oii_text id sp ph sc c).
Proof.
  intros Hi Hs Hsp Hph Hn Hc. unfold oii_with, oii_text. change ("{"%char :: ?x) with (["{"%char] ++ x). constructor; [apply lang_char|].
  rewrite app_assoc. constructor; [constructor; apply lang_text; constructor; by apply lang_number|]. change ("}"%char :: ?x) with (["}"%char] ++ x). constructor; [apply lang_char|].
  constructor. { constructor. eapply Forall_impl; [exact Hsp|]. by intros x ->. }
  change ("["%char :: ?x) with (["["%char] ++ x). constructor; [apply lang_char|]. replace (ph ++ sc ++ c ++ ["]"%char]) with ((ph ++ (sc ++ c)) ++ ["]"%char]) by by rewrite <- !app_assoc.
  constructor; [|apply lang_char]. constructor. constructor; [by apply phantom_matches|]. constructor; [constructor; by apply lang_number|]. constructor. by apply dot_spec.
Qed.
Lemma oii_pick s cs t : newline ∉ s -> pick (run (RSeq (oii_with not_brace_line) (RStar dot)) s) Some = Some (cs, t) ->
  exists id sp ph sc c r, s = oii_text id sp ph sc c ++ r /\ number id /\ number sc /\ Forall (fun x => x = " "%char) sp /\ phantom_text ph /\ (forall x u, c = x :: u -> is_digit x = false)
    /\ capture 2 cs = Some id /\ capture 4 cs = Some sc.
Proof.
  intros Hnl H. rewrite pick_seq in H. unfold oii_with in H. rewrite pick_seq in H. apply pick_Some in H as (y1 & H1 & H). apply in_char in H1 as (s1 & -> & ->). cbn [fst snd] in H.
  rewrite pick_seq in H. apply pick_Some in H as (y2 & H2 & H). apply in_group in H2 as (y3 & m & H2 & -> & _ & ->). cbn [fst snd] in H.
  apply in_text in H2 as (s2 & E2 & H2). apply in_group in H2 as (y4 & id & P4 & -> & L2 & ->). apply plus_caps in P4. destruct y4 as [c4 s4]. cbn [fst] in P4. subst c4. cbn [fst snd] in *.
  rewrite pick_seq in H. apply pick_Some in H as (y5 & H5 & H). apply in_char in H5 as (s5 & E5 & ->). cbn [fst snd] in H.
  rewrite pick_seq in H. apply pick_Some in H as ([c6 s6] & H6 & H). cbn [run] in H6. apply elem_of_list_fmap in H6 as (s6' & [= -> ->] & H6). apply star_spec in H6 as (sp & -> & Hsp). cbn [fst snd] in H.
  rewrite pick_seq in H. apply pick_Some in H as (y7 & H7 & H). apply in_char in H7 as (s7 & -> & ->). cbn [fst snd] in H.
  rewrite pick_seq, pick_group, pick_seq in H. apply pick_Some in H as (y8 & H8 & H). apply in_phantom in H8 as (ph & E8 & Hph & F8). destruct y8 as [c8 s8]. cbn [fst snd] in *. subst c8.
  rewrite pick_seq, pick_group, pick_plus in H. cbn [fst snd] in H. destruct s8 as [|d s9]; [done|]. destruct (is_digit d) eqn:Ed; [|done]. apply pick_star_first in H as (ds & s10 & -> & Hds & H & Hmax).
  cbn [fst snd] in *. apply pick_Some in H as ([c11 s11] & H11 & H). cbn [run] in H11. apply elem_of_list_fmap in H11 as (s11' & [= -> ->] & H11). apply star_spec in H11 as (c & -> & Hc). cbn [fst snd] in H.
  apply pick_Some in H as (y12 & H12 & H). apply in_char in H12 as (r & -> & ->). cbn [fst snd] in H. apply pick_Some in H as (y13 & H13 & H). injection H as Hcs _.
  exists id, sp, ph, (d :: ds), c, r. split_and!.
  - unfold oii_text. cbn [app]. f_equal. rewrite E2, E5, E8. repeat (rewrite <- app_assoc; cbn [app]). done.
  - by apply lang_number.
  - apply number_spec. split; [by constructor|done].
  - eapply Forall_impl; [exact Hsp|]. intros x Hx. by apply bool_decide_eq_true in Hx.
  - done.
  - intros x u ->. destruct (is_digit x) eqn:Ex; [exfalso|done]. specialize (Hmax (ds ++ [x]) (u ++ "]"%char :: r)). rewrite <- app_assoc in Hmax. specialize (Hmax eq_refl).
    assert (Forall (fun c => is_digit c = true) (ds ++ [x])) as Hf by (apply Forall_app; split; [done|by constructor]). rewrite app_length in Hmax. cbn [length] in Hmax. specialize (Hmax Hf ltac:(lia)).
    apply Forall_cons in Hc as [_ Hc]. eapply (pick_None _ _ ([], "]"%char :: r)) in Hmax; [|cbn [run]; apply elem_of_list_fmap; exists ("]"%char :: r); split; [done|]; apply star_spec; by exists u].
    cbn [fst snd] in Hmax. rewrite pick_char in Hmax. cbn [fst snd] in Hmax. destruct (run (RStar dot) r) as [|q qs]; [by apply elem_of_nil in H13|]. done.
  - rewrite <- Hcs. cbn [app]. reflexivity.
  - rewrite <- Hcs. clear. cbn [app capture List.find Nat.eqb fst snd]. unfold capture. cbn [List.find Nat.eqb fst snd]. f_equal.
    etrans; [|exact (take_app (d :: ds) (c ++ "]"%char :: r))]. f_equal. cbn [length app]. rewrite !app_length. cbn [length]. lia.
Qed.
Lemma oii_at_matches l a id score : newline ∉ l -> oii_at l a id score -> exists m b, l = a ++ m ++ b /\ matches (oii_with not_brace_line) m.
Proof.
  intros Hl (sp & ph & c & b & E & Hi & Hs & Hsp & Hph & Hc). exists (oii_text id sp ph score c), b. split.
  - rewrite E. f_equal. unfold oii_text. change (chars "{Subtask ") with ("{"%char :: chars "Subtask "). cbn [app]. repeat (rewrite <- app_assoc; cbn [app]). done.
  - rewrite E, !not_elem_of_app, not_elem_of_cons, not_elem_of_app, not_elem_of_cons, !not_elem_of_app in Hl. apply oii_matches; try done; tauto.
Qed.
Lemma oii_line l c : newline ∉ l -> line_caps (line_re (oii_with not_brace_line)) l = Some c -> exists id score, capture 2 c = Some id /\ capture 4 c = Some score /\ written_oii l id score.
Proof.
  intros Hl H. apply line_last in H as (a & s & t & -> & Hp & Hm); [|done]. apply oii_pick in Hp as (id & sp & ph & sc & c' & r & -> & Hi & Hs & Hsp & Hph & Hd & C2 & C4); [|by apply not_elem_of_app in Hl as [_ ?]].
  exists id, sc. split_and!; [done|done|]. exists a. split.
  - exists sp, ph, c', r. split_and!; try done.
    + f_equal. unfold oii_text. change (chars "{Subtask ") with ("{"%char :: chars "Subtask "). cbn [app]. repeat (rewrite <- app_assoc; cbn [app]). done.
    + intros x u E. specialize (Hd x u E). intros Hx. apply digit_spec in Hx. congruence.
  - intros a' i' s' Ha. apply oii_at_matches in Ha as (m & b & E & L); [|done]. by eapply Hm.
Qed.
Lemma oii_none l id score : newline ∉ l -> line_caps (line_re (oii_with not_brace_line)) l = None -> ~ written_oii l id score.
Proof. intros Hl H (a & Ha & _). apply oii_at_matches in Ha as (m & b & E & L); [|done]. rewrite line_none in H by done. by eapply H. Qed.
Lemma oii_with_line : within_line (oii_with not_brace_line).
Proof. vm_compute. repeat split. Qed.
Lemma oii_with_empty : ~ matches (oii_with not_brace_line) [].
Proof. intros L. inversion L as [| | |? ? s t L1 L2 E1 E2| | |]; subst. apply app_eq_nil in E2 as [-> _]. inversion L1. Qed.
(** the groups of all the lines *)
Lemma oii_captures t : phantoms_closed t -> captures_iter (line_re oii_body) t = omap (line_caps (line_re (oii_with not_brace_line))) (lines_of t).
Proof. intros Ht. rewrite captures_same by done. apply captures_lines; [apply oii_with_line|apply oii_with_empty]. Qed.
Lemma ois_captures t : captures_iter (line_re ois_body) t = omap (line_caps (line_re ois_body)) (lines_of t).
Proof. apply captures_lines; [apply ois_body_line|apply ois_body_empty]. Qed.
Lemma new_captures t : length (captures_iter new_re t) = length (omap (line_caps (line_re new_body)) (lines_of t)).
Proof.
  unfold new_re. rewrite captures_group, captures_lines; [done|vm_compute; repeat split|]. intros L. by apply new_lang in L.
Qed.
