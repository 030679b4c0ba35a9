(** * StmtProofs2: the subtasks in the lines *)
From Verif Require Export StmtModel StmtSpec StmtProofs.
From Verif Require Import RegexProofs BookletSpec BookletProofs2 LatexSpec LatexProps.
From Coq Require Import Ascii String NArith Lia.
From stdpp Require Import base list.
Local Open Scope nat_scope.

Lemma in_lines_omap {A} (P : text -> A -> Prop) (f : text -> option A) ls :
  (forall l x, l ∈ ls -> f l = Some x -> P l x) -> (forall l x, l ∈ ls -> f l = None -> ~ P l x) -> in_lines P ls (omap f ls).
Proof.
  induction ls as [|l ls IH]; intros H1 H2; [constructor|]. cbn [omap list_omap]. destruct (f l) as [x|] eqn:E.
  - constructor; [apply H1; [left|done]|]. apply IH; intros; [eapply H1|eapply H2]; eauto; by right.
  - constructor; [intros x; apply H2; [left|done]|]. apply IH; intros; [eapply H1|eapply H2]; eauto; by right.
Qed.
Lemma lines_no_newline t l : l ∈ lines_of t -> newline ∉ l.
Proof.
  unfold lines_of. revert l. induction t as [|c t IH]; intros l H; cbn [split_on] in H; [apply elem_of_list_singleton in H as ->; by apply not_elem_of_nil|].
  destruct (decide (c = newline)) as [->|Hc]; [apply elem_of_cons in H as [->|H]; [by apply not_elem_of_nil|by apply IH]|].
  destruct (split_on newline t) as [|p ps] eqn:E; [apply elem_of_list_singleton in H as ->; rewrite not_elem_of_cons; split; [congruence|by apply not_elem_of_nil]|].
  apply elem_of_cons in H as [->|H]; [rewrite not_elem_of_cons; split; [congruence|apply IH; by left]|apply IH; by right].
Qed.

(** ** OIS *)
Definition ois_text (cmd score k body : text) : text := backslash :: cmd ++ "{"%char :: score ++ chars "}{" ++ k ++ chars "}{" ++ body ++ ["}"%char].
Lemma ois_matches cmd score k body : cmd = chars "OISubtask" \/ cmd = chars "IIOTsubtask" -> number score -> number k -> body <> [] -> newline ∉ body -> matches ois_body (ois_text cmd score k body).
Proof.
  intros Hc Hs Hk Hb Hn. unfold ois_body, ois_text. change (backslash :: cmd ++ ?x) with ([backslash] ++ (cmd ++ x)). constructor; [apply lang_char|]. constructor.
  { destruct Hc as [->| ->]; [apply LAltL|apply LAltR]; rewrite <- (app_nil_r (chars _)); apply lang_text; constructor. }
  change ("{"%char :: ?x) with (["{"%char] ++ x). constructor; [apply lang_char|]. constructor; [constructor; by apply lang_number|]. apply lang_text. constructor; [by apply lang_number|]. apply lang_text.
  constructor; [|apply lang_char]. apply lang_plus; [by apply dot_spec|done].
Qed.
Lemma ois_run s x : x ∈ run ois_body s -> exists cmd score k body r, s = ois_text cmd score k body ++ r /\ (cmd = chars "OISubtask" \/ cmd = chars "IIOTsubtask") /\ number score /\ number k /\ body <> [] /\ newline ∉ body
  /\ capture 1 (fst x) = Some score /\ snd x = r.
Proof.
  intros H. unfold ois_body in H. apply in_rseq in H as (y1 & z1 & H1 & H & ->). apply in_char in H1 as (s1 & -> & ->). cbn [fst snd] in H.
  apply in_rseq in H as (y2 & z2 & H2 & H & ->). 
  assert (exists cmd, s1 = cmd ++ snd y2 /\ (cmd = chars "OISubtask" \/ cmd = chars "IIOTsubtask") /\ fst y2 = []) as (cmd & -> & Hcmd & E2).
  { cbn [run] in H2. apply elem_of_app in H2 as [H2|H2]; apply in_text in H2 as (s' & -> & H2); apply elem_of_list_singleton in H2 as ->; eexists; split_and!; [done|by left|done|done|by right|done]. }
  destruct y2 as [c2 s2]. cbn [fst snd] in *. subst c2. apply in_rseq in H as (y3 & z3 & H3 & H & ->). apply in_char in H3 as (s3 & -> & ->). cbn [fst snd] in H.
  apply in_rseq in H as (y4 & z4 & H4 & H & ->). apply in_group in H4 as (y5 & score & _ & -> & L4 & ->). cbn [fst snd] in H. apply in_text in H as (s5 & E5 & H).
  apply in_rseq in H as (y6 & z6 & H6 & H & ->). destruct y6 as [c6 s6]. pose proof (run_sound _ _ _ _ H6) as (k & -> & L6). cbn [fst snd] in H. apply in_text in H as (s7 & -> & H).
  apply in_rseq in H as (y8 & z8 & H8 & H & ->). destruct y8 as [c8 s8]. pose proof (run_sound _ _ _ _ H8) as (body & -> & L8). apply in_char in H as (r & Er & ->). cbn [fst snd] in *. subst s8.
  apply lang_number in L4, L6. apply lang_plus_inv in L8 as [L8 Hb]. apply dot_spec in L8. exists cmd, score, k, body, r. split_and!; try done.
  unfold ois_text. rewrite E5. cbn [app]. f_equal. rewrite <- !app_assoc. cbn [app]. rewrite <- !app_assoc. done.
Qed.
Lemma ois_body_line : within_line ois_body.
Proof. vm_compute. repeat split. Qed.
Lemma ois_body_empty : ~ matches ois_body [].
Proof. intros L. inversion L as [| | |? ? s t L1 L2 E1 E2| | |]; subst. apply app_eq_nil in E2 as [-> _]. inversion L1. Qed.
Lemma ois_at_matches l a score : newline ∉ l -> ois_at l a score -> exists m b, l = a ++ m ++ b /\ matches ois_body m.
Proof.
  intros Hl (cmd' & k' & body' & b' & E & Hc' & Hs' & Hk' & Hb'). exists (ois_text (chars cmd') score k' body'), b'. split.
  - rewrite E. f_equal. unfold ois_text. cbn [app]. f_equal. rewrite <- !app_assoc. cbn [app]. f_equal. f_equal. rewrite <- !app_assoc. done.
  - apply ois_matches; try done; [destruct Hc' as [->| ->]; [by left|by right]|]. rewrite E in Hl. rewrite !not_elem_of_app in Hl. destruct Hl as [_ Hl]. rewrite not_elem_of_cons, !not_elem_of_app, not_elem_of_cons, !not_elem_of_app in Hl. tauto.
Qed.
Lemma ois_line l c : newline ∉ l -> line_caps (line_re ois_body) l = Some c -> exists score, capture 1 c = Some score /\ written_ois l score.
Proof.
  intros Hl H. apply line_last in H as (a & s & t & -> & Hp & Hm); [|done]. apply pick_Some in Hp as (x & Hx & [= ->]). apply in_rseq in Hx as (y & z & Hy & Hz & [= -> ->]).
  apply ois_run in Hy as (cmd & score & k & body & r & -> & Hcmd & Hs & Hk & Hb & Hn & Hg & Hr). exists score. split.
  - by apply capture_app.
  - exists a. split.
    + exists (string_of_list_ascii cmd), k, body, r. unfold chars at 2. rewrite list_ascii_of_string_of_list_ascii. split_and!; try done; [|destruct Hcmd as [->| ->]; [by left|by right]].
      f_equal. unfold ois_text. cbn [app]. f_equal. rewrite <- !app_assoc. cbn [app]. f_equal. f_equal. rewrite <- !app_assoc. done.
    + intros a' s' Ha. apply ois_at_matches in Ha as (m & b & E & L); [|done]. by eapply Hm.
Qed.
Lemma ois_none l score : newline ∉ l -> line_caps (line_re ois_body) l = None -> ~ written_ois l score.
Proof. intros Hl H (a & Ha & _). apply ois_at_matches in Ha as (m & b & E & L); [|done]. rewrite line_none in H by done. by eapply H. Qed.
