(** * LatexProps: C84, the errors of a booklet *)
From Verif Require Export LatexModel LatexSpec BookletSpec.
From Verif Require Import BookletModel AttModel BookletProofs2 BookletProps2 FindProofs FindProofs2 LangProofs2.
From Coq Require Import Ascii String NArith.
From stdpp Require Import base list sorting.
Local Open Scope nat_scope.

Lemma message_spec l m : message_of l = Some m <-> l = " "%char :: m /\ m <> [].
Proof.
  destruct l as [|c [|d r]]; cbn [message_of]; [split; [done|by intros [? _]]|split; [done|intros [[= -> <-] ?]; done]|]. case_decide as E.
  - subst. split; [by intros [= <-]|by intros [[= <-] _]].
  - split; [done|]. by intros [[= -> _] _].
Qed.
Lemma error_line_spec l m : error_line l = Some m <-> is_error l m.
Proof.
  unfold is_error, latex_prefix. change (chars "! LaTeX Error: ") with ("!"%char :: chars " LaTeX Error:" ++ [" "%char]). change (chars "! ") with ["!"%char; " "%char].
  destruct l as [|c r]; [cbn; split; [done|by intros [_ [?|[? _]]]]|]. cbn [error_line]. case_decide as E.
  - subst c. destruct (strip_start (chars " LaTeX Error:") r) as [r'|] eqn:Es.
    + apply strip_start_Some in Es. destruct (message_of r') as [m'|] eqn:Em.
      * apply message_spec in Em as [-> Hm']. split.
        -- intros [= <-]. split; [done|]. left. rewrite Es. cbn [app]. by rewrite <- app_assoc.
        -- intros [Hm [E|[E Hn]]]; [|exfalso; apply Hn; exists m'; split; [done|]; rewrite Es; cbn [app]; by rewrite <- app_assoc].
           rewrite Es in E. cbn [app] in E. rewrite <- app_assoc in E. injection E as E. cbn [app] in E. by rewrite E.
      * assert (~ exists m', m' <> [] /\ "!"%char :: r = ("!"%char :: chars " LaTeX Error:" ++ [" "%char]) ++ m') as Hn.
        { intros (m' & Hm' & E). rewrite Es in E. cbn [app] in E. rewrite <- app_assoc in E. injection E as E. apply (f_equal message_of) in E. rewrite Em in E. symmetry in E.
          assert (message_of (" "%char :: m') = Some m') as E' by by apply message_spec. cbn [app] in E. congruence. }
        rewrite message_spec. split; [intros [-> Hm]; split; [done|right; by split]|]. intros [Hm [E|[E _]]]; [exfalso; apply Hn; by exists m|]. by injection E as ->.
    + assert (~ exists m', m' <> [] /\ "!"%char :: r = ("!"%char :: chars " LaTeX Error:" ++ [" "%char]) ++ m') as Hn.
      { intros (m' & _ & E). apply (f_equal (@tl ascii)) in E. change (r = (chars " LaTeX Error:" ++ [" "%char]) ++ m') in E. rewrite <- app_assoc in E. rewrite E, strip_start_app in Es. done. }
      rewrite message_spec. split; [intros [-> Hm]; split; [done|right; by split]|]. intros [Hm [E|[E _]]]; [exfalso; apply Hn; by exists m|]. by injection E as ->.
  - split; [done|]. intros [_ [E'|[E' _]]]; cbn [app] in E'; congruence.
Qed.
Lemma digit_spec c : is_digit c = true <-> c ∈ chars "0123456789".
Proof.
  split.
  - destruct c as [[] [] [] [] [] [] [] []]; vm_compute; try done; intros _; repeat first [left; reflexivity|right]; set_solver.
  - intros H. unfold chars in H. cbn in H. rewrite !elem_of_cons in H. destruct H as [->|[->|[->|[->|[->|[->|[->|[->|[->|[->|H%elem_of_nil]]]]]]]]]]; done.
Qed.
Lemma span_spec (f : ascii -> bool) l : l = fst (span f l) ++ snd (span f l) /\ Forall (fun c => f c = true) (fst (span f l)) /\ forall c r, snd (span f l) = c :: r -> f c = false.
Proof.
  induction l as [|c l IH]; [by repeat split; [constructor|]|]. cbn [span]. destruct (f c) eqn:E; [|split; [done|]; split; [constructor|]; intros ? ? [= -> ->]; done].
  destruct (span f l) as [a b]. cbn [fst snd] in *. destruct IH as (-> & H1 & H2). split; [done|]. split; [by constructor|done].
Qed.
Lemma span_app (f : ascii -> bool) a b : Forall (fun c => f c = true) a -> (forall c r, b = c :: r -> f c = false) -> span f (a ++ b) = (a, b).
Proof.
  induction 1 as [|c a Hc _ IH]; intros Hb; cbn [app span].
  - destruct b as [|c b]; [done|]. cbn [span]. by rewrite (Hb c b eq_refl).
  - by rewrite Hc, IH.
Qed.
Lemma number_value ds : number_of ds = value 0 ds.
Proof.
  unfold number_of. generalize 0%N. induction ds as [|c ds IH]; intros a; [done|]. cbn [fold_left value]. rewrite IH. f_equal. unfold nat_of_ascii. rewrite Nat2N.inj_sub, N2Nat.id. done.
Qed.
Lemma number_line_spec l n : (exists ds, number_line l = Some ds /\ n = number_of ds) <-> is_place l n.
Proof.
  unfold number_line, is_place. split.
  - intros (ds & H & ->). destruct (strip_start (chars "l.") l) as [r|] eqn:E; [|done]. apply strip_start_Some in E. destruct (span_spec is_digit r) as (E1 & E2 & E3).
    destruct (span is_digit r) as [a b]. cbn [fst snd] in *. exists ds, b. assert (a = ds) as <- by (destruct a; [done|congruence]). split_and!; [by rewrite <- E1|by destruct a| | |apply number_value].
    + eapply Forall_impl; [exact E2|]. intros c. apply digit_spec.
    + intros c k Hb Hc%digit_spec. by rewrite (E3 c k Hb) in Hc.
  - intros (ds & rest & -> & Hne & Hd & Hr & ->). exists ds. rewrite strip_start_app, span_app.
    + cbn [fst]. split; [by destruct ds|by rewrite number_value].
    + eapply Forall_impl; [exact Hd|]. intros c. apply digit_spec.
    + intros c r E. apply Hr in E. rewrite <- digit_spec in E. by destruct (is_digit c).
Qed.
Lemma number_line_none l : number_line l = None <-> forall n, ~ is_place l n.
Proof.
  split.
  - intros H n (ds & E & _)%number_line_spec. congruence.
  - intros H. destruct (number_line l) as [ds|] eqn:E; [|done]. exfalso. apply (H (number_of ds)). apply number_line_spec. by exists ds.
Qed.
Lemma error_line_none l : error_line l = None <-> forall m, ~ is_error l m.
Proof.
  split.
  - intros H m E%error_line_spec. congruence.
  - intros H. destruct (error_line l) as [m|] eqn:E; [|done]. exfalso. apply (H m). by apply error_line_spec.
Qed.
Lemma parse_shown ds : parse_i32 ds = line_shown (number_of ds).
Proof. unfold parse_i32, line_shown. change (2 ^ 31)%N with 2147483648%N. reflexivity. Qed.
(** [n] is the first place of the lines *)
Definition first_place (ls : list text) (n : N) : Prop := exists j k, ls !! j = Some k /\ is_place k n /\ forall x y z, x < j -> ls !! x = Some y -> ~ is_place y z.
Lemma first_place_cons l ls n : (forall z, ~ is_place l z) -> first_place ls n -> first_place (l :: ls) n.
Proof. intros H (j & k & H1 & H2 & H3). exists (S j), k. split_and!; [done|done|]. intros [|x] y z Hx Hy; [by injection Hy as <-|]. apply (H3 x); [lia|done]. Qed.
Lemma error_at_here l ls m n : is_error l m -> first_place ls n -> error_at (l :: ls) 0 m n.
Proof. intros H (j & k & H1 & H2 & H3). exists l, (S j), k. split_and!; [done|done|lia|done|done|]. intros [|x] y z Hx Hxj Hy; [lia|]. apply (H3 x); [lia|done]. Qed.
Lemma error_at_there l ls i m n : error_at ls i m n <-> error_at (l :: ls) (S i) m n.
Proof.
  split.
  - intros (a & j & k & H1 & H2 & H3 & H4 & H5 & H6). exists a, (S j), k. split_and!; [done|done|lia|done|done|]. intros [|x] y z Hx Hxj Hy; [lia|]. apply (H6 x); [lia|lia|done].
  - intros (a & j & k & H1 & H2 & H3 & H4 & H5 & H6). destruct j as [|j]; [lia|]. exists a, j, k. split_and!; [done|done|lia|done|done|]. intros x y z Hx Hxj Hy. apply (H6 (S x)); [lia|lia|done].
Qed.
Lemma find_sound ls : (forall e, e ∈ find_errors None ls -> exists i m n, error_at ls i m n /\ e = (line_shown n, m)) /\
  forall m0 e, e ∈ find_errors (Some m0) ls -> (exists n, first_place ls n /\ e = (line_shown n, m0)) \/ exists i m n, error_at ls i m n /\ e = (line_shown n, m).
Proof.
  induction ls as [|l ls [IH1 IH2]]; [split; [by intros e ?%elem_of_nil|by intros m0 e ?%elem_of_nil]|]. cbn [find_errors]. split.
  - intros e He. destruct (error_line l) as [m|] eqn:El.
    + apply IH2 in He as [(n & Hn & ->)|(i & m' & n & Hi & ->)]; [exists 0, m, n; split; [apply error_at_here; [by apply error_line_spec|done]|done]|exists (S i), m', n; split; [by apply error_at_there|done]].
    + apply IH1 in He as (i & m & n & Hi & ->). exists (S i), m, n. split; [by apply error_at_there|done].
  - intros m0 e He. destruct (number_line l) as [ds|] eqn:El.
    + apply elem_of_cons in He as [->|He].
      * left. exists (number_of ds). split; [|by rewrite parse_shown]. exists 0, l. split_and!; [done|apply number_line_spec; by exists ds|intros; lia].
      * right. apply IH1 in He as (i & m & n & Hi & ->). exists (S i), m, n. split; [by apply error_at_there|done].
    + apply IH2 in He as [(n & Hn & ->)|(i & m & n & Hi & ->)].
      * left. exists n. split; [|done]. apply first_place_cons; [by apply number_line_none|done].
      * right. exists (S i), m, n. split; [by apply error_at_there|done].
Qed.
Lemma first_place_fun ls n n' : first_place ls n -> first_place ls n' -> (forall l a b, is_place l a -> is_place l b -> a = b) -> n = n'.
Proof.
  intros (j & k & H1 & H2 & H3) (j' & k' & H1' & H2' & H3') Hf. destruct (Nat.lt_trichotomy j j') as [H|[->|H]].
  - exfalso. by apply (H3' j k n H H1).
  - eapply Hf; [exact H2|]. congruence.
  - exfalso. by apply (H3 j' k' n' H H1').
Qed.
Lemma place_fun l a b : is_place l a -> is_place l b -> a = b.
Proof. intros (ds & E & ->)%number_line_spec (ds' & E' & ->)%number_line_spec. congruence. Qed.
Lemma paired_tail l ls : paired (l :: ls) -> paired ls.
Proof.
  intros H i1 i2 l1 l2 m1 m2 Hi H1 H2 H3 H4. destruct (H (S i1) (S i2) l1 l2 m1 m2) as (j & k & n & Ha & Hb & Hc & Hd); [lia|done..|]. destruct j as [|j]; [lia|]. exists j, k, n. split_and!; [lia|lia|done|done].
Qed.
Lemma find_complete ls : paired ls ->
  (forall i m n, error_at ls i m n -> (line_shown n, m) ∈ find_errors None ls) /\
  forall m0, (forall i l m, ls !! i = Some l -> is_error l m -> exists j k n, j < i /\ ls !! j = Some k /\ is_place k n) ->
    (forall n, first_place ls n -> (line_shown n, m0) ∈ find_errors (Some m0) ls) /\ (forall i m n, error_at ls i m n -> (line_shown n, m) ∈ find_errors (Some m0) ls).
Proof.
  induction ls as [|l ls IH]; intros Hp.
  - split; [by intros i m n (? & ? & ? & ? & _)|]. intros m0 _. split; [by intros n (? & ? & ? & _)|by intros i m n (? & ? & ? & ? & _)].
  - destruct (IH (paired_tail _ _ Hp)) as [IH1 IH2]. cbn [find_errors]. split.
    + intros i m n He. destruct (error_line l) as [m1|] eqn:El.
      * apply error_line_spec in El. assert (forall i l m, ls !! i = Some l -> is_error l m -> exists j k n, j < i /\ ls !! j = Some k /\ is_place k n) as Hf.
        { intros i' l' m' H1 H2. destruct (Hp 0 (S i') l l' m1 m') as (j & k & n' & Ha & Hb & Hc & Hd); [lia|done..|]. destruct j as [|j]; [lia|]. exists j, k, n'. split_and!; [lia|done|done]. }
        destruct (IH2 m1 Hf) as [A B]. destruct i as [|i]; [|apply B with i; by apply error_at_there in He].
        destruct He as (a & j & k & H1 & H2 & H3 & H4 & H5 & H6). injection H1 as <-. assert (m = m1) as ->. { apply error_line_spec in H2, El. congruence. }
        apply A. destruct j as [|j]; [lia|]. exists j, k. split_and!; [done|done|]. intros x y z Hx Hy. apply (H6 (S x)); [lia|lia|done].
      * destruct i as [|i]; [|apply IH1 with i; by apply error_at_there in He]. exfalso. destruct He as (a & j & k & [= <-] & H2 & _). apply error_line_spec in H2. congruence.
    + intros m0 Hf. destruct (number_line l) as [ds|] eqn:El.
      * split.
        -- intros n Hn. assert (n = number_of ds) as ->; [|rewrite parse_shown; left]. eapply first_place_fun; [exact Hn| |apply place_fun]. exists 0, l. split_and!; [done|apply number_line_spec; by exists ds|intros; lia].
        -- intros i m n He. right. destruct i as [|i]; [|apply IH1 with i; by apply error_at_there in He]. exfalso.
           destruct He as (a & j & k & [= <-] & H2 & _). destruct (Hf 0 l m eq_refl H2) as (j' & ? & ? & ? & _). lia.
      * assert (forall i l m, ls !! i = Some l -> is_error l m -> exists j k n, j < i /\ ls !! j = Some k /\ is_place k n) as Hf'.
        { intros i l' m H1 H2. destruct (Hf (S i) l' m H1 H2) as (j & k & n & Ha & Hb & Hc). destruct j as [|j]; [injection Hb as <-; exfalso; by apply (proj1 (number_line_none l) El n)|]. exists j, k, n. split_and!; [lia|done|done]. }
        destruct (IH2 m0 Hf') as [A B]. split.
        -- intros n (j & k & H1 & H2 & H3). apply A. destruct j as [|j]; [injection H1 as <-; exfalso; by apply (proj1 (number_line_none l) El n)|]. exists j, k. split_and!; [done|done|]. intros x y z Hx Hy. apply (H3 (S x)); [lia|done].
        -- intros i m n He. destruct i as [|i]; [|apply B with i; by apply error_at_there in He]. exfalso.
           destruct He as (a & j & k & [= <-] & H2 & _). destruct (Hf 0 l m eq_refl H2) as (j' & ? & ? & ? & _). lia.
Qed.
Lemma elem_warnings c e : e ∈ emit_warnings c <-> e ∈ find_errors None (lines_of c).
Proof. unfold emit_warnings. by rewrite merge_sort_Permutation, elem_of_remove_dups. Qed.

(** ** C84 *)
(** What is reported is an error of LaTeX, with the first place after it *)
Theorem C84_sound c e : e ∈ emit_warnings c -> exists i m n, error_at (lines_of c) i m n /\ e = (line_shown n, m).
Proof. rewrite elem_warnings. apply find_sound. Qed.
(** If each error has its place before the next one, all the errors are reported *)
Theorem C84_complete c : paired (lines_of c) -> forall e, e ∈ emit_warnings c <-> exists i m n, error_at (lines_of c) i m n /\ e = (line_shown n, m).
Proof. intros Hp e. split; [apply C84_sound|]. intros (i & m & n & He & ->). apply elem_warnings. eapply (proj1 (find_complete _ Hp)); exact He. Qed.
(** Each one once, by line; those without a line are first *)
Lemma error_le_total : Total error_le.
Proof.
  intros [[m|] a] [[n|] b]; unfold error_le; cbn [fst snd]; [|by right|by left|apply text_le_total].
  destruct (N.lt_trichotomy m n) as [H|[->|H]]; [by left; left| |by right; left]. destruct (text_le_total a b); [left|right]; by right.
Qed.
Lemma error_le_trans : Transitive error_le.
Proof.
  intros [[m|] a] [[n|] b] [[o|] c]; unfold error_le; cbn [fst snd]; try done.
  - intros [H1|[-> H1]] [H2|[-> H2]]; [left; lia|by left|by left|right; split; [done|by eapply text_le_trans]].
  - apply text_le_trans.
Qed.
Theorem C84_sorted c : NoDup (emit_warnings c) /\ StronglySorted error_le (emit_warnings c).
Proof. unfold emit_warnings. split; [rewrite merge_sort_Permutation; apply NoDup_remove_dups|apply StronglySorted_merge_sort; [apply error_le_trans|apply error_le_total]]. Qed.
(** There is a warning exactly when an error is followed by a place *)
Lemma find_none ls : (find_errors None ls = [] -> forall i m n, ~ error_at ls i m n) /\ forall m0, find_errors (Some m0) ls = [] -> (forall n, ~ first_place ls n) /\ forall i m n, ~ error_at ls i m n.
Proof.
  induction ls as [|l ls [IH1 IH2]]; [split; [by intros _ i m n (? & ? & ? & ? & _)|]; intros m0 _; split; [by intros n (? & ? & ? & _)|by intros i m n (? & ? & ? & ? & _)]|].
  cbn [find_errors]. split.
  - intros H i m n He. destruct (error_line l) as [m1|] eqn:El.
    + destruct (IH2 m1 H) as [A B]. destruct i as [|i]; [|apply (B i m n); by apply error_at_there in He]. destruct He as (a & j & k & H1 & H2 & H3 & H4 & H5 & H6). apply (A n). destruct j as [|j]; [lia|].
      exists j, k. split_and!; [done|done|]. intros x y z Hx Hy. apply (H6 (S x)); [lia|lia|done].
    + destruct i as [|i]; [|apply (IH1 H i m n); by apply error_at_there in He]. destruct He as (a & j & k & [= <-] & H2 & _). apply error_line_spec in H2. congruence.
  - intros m0 H. destruct (number_line l) as [ds|] eqn:El; [done|]. destruct (IH2 m0 H) as [A B].
    assert (forall n, ~ first_place (l :: ls) n) as Hn.
    { intros n (j & k & H1 & H2 & H3). destruct j as [|j]; [injection H1 as <-; by apply (proj1 (number_line_none l) El n)|]. apply (A n). exists j, k. split_and!; [done|done|]. intros x y z Hx Hy. apply (H3 (S x)); [lia|done]. }
    split; [done|]. intros i m n He. destruct i as [|i]; [|apply (B i m n); by apply error_at_there in He]. destruct He as (a & j & k & H1 & H2 & H3 & H4 & H5 & H6). apply (A n). destruct j as [|j]; [lia|].
    exists j, k. split_and!; [done|done|]. intros x y z Hx Hy. apply (H6 (S x)); [lia|lia|done].
Qed.
Theorem C84_warning c : warning c = None <-> forall i m n, ~ error_at (lines_of c) i m n.
Proof.
  assert (warning c = None <-> emit_warnings c = []) as -> by (unfold warning; by destruct (emit_warnings c)). split.
  - intros H. apply find_none. destruct (find_errors None (lines_of c)) as [|e es] eqn:E; [done|]. exfalso. assert (e ∈ emit_warnings c) as He by (apply elem_warnings; rewrite E; left). rewrite H in He. by apply elem_of_nil in He.
  - intros H. destruct (emit_warnings c) as [|e es] eqn:E; [done|]. exfalso. assert (e ∈ emit_warnings c) as (i & m & n & He & _)%C84_sound by (rewrite E; left). by apply (H i m n).
Qed.
(** The numbers are written in decimal *)
Lemma value_app a ds c : value a (ds ++ [c]) = (10 * value a ds + (N_of_ascii c - 48))%N.
Proof. revert a. induction ds as [|d ds IH]; intros a; [done|]. cbn [app value]. apply IH. Qed.
Lemma digit_of n : (n < 10)%N -> N_of_ascii (ascii_of_N (48 + n)) = (48 + n)%N.
Proof. intros H. apply N_ascii_embedding. lia. Qed.
Lemma digit_in n : (n < 10)%N -> ascii_of_N (48 + n) ∈ chars "0123456789".
Proof.
  intros H. assert (n = 0 \/ n = 1 \/ n = 2 \/ n = 3 \/ n = 4 \/ n = 5 \/ n = 6 \/ n = 7 \/ n = 8 \/ n = 9)%N as Hn by lia.
  destruct Hn as [->|[->|[->|[->|[->|[->|[->|[->|[->| ->]]]]]]]]]; apply (bool_decide_unpack _); vm_compute; exact Logic.I.
Qed.
Lemma show_digits_spec fuel n : (n < 2 ^ N.of_nat fuel)%N -> fuel <> 0 -> value 0 (show_digits fuel n) = n /\ decimal (show_digits fuel n) /\ show_digits fuel n <> [].
Proof.
  revert n. induction fuel as [|fuel IH]; intros n Hn Hf; [done|]. cbn [show_digits]. pose proof (N.mod_lt n 10 ltac:(done)) as Hm. pose proof (N.div_mod n 10 ltac:(done)) as Hd.
  destruct (N.ltb_spec n 10) as [H|H].
  - cbn [app]. rewrite N.mod_small by done. split_and!; [|constructor; [by apply digit_in|constructor]|done]. cbn [value]. rewrite digit_of by done. lia.
  - assert (fuel <> 0) as Hf'. { intros ->. cbn in Hn. lia. } destruct (IH (n / 10)%N) as (A & B & C); [|done|].
    { apply N.div_lt_upper_bound; [done|]. rewrite Nat2N.inj_succ, N.pow_succ_r' in Hn. lia. }
    split_and!; [|apply Forall_app; split; [done|]; constructor; [by apply digit_in|constructor]|by destruct (show_digits fuel (n / 10))].
    rewrite value_app, A, digit_of by done. rewrite (N.add_comm 48), N.add_sub. symmetry. exact Hd.
Qed.
Theorem C84_number n : value 0 (show_N n) = n /\ decimal (show_N n) /\ show_N n <> [].
Proof.
  apply show_digits_spec; [|done]. rewrite Nat2N.inj_succ, N2Nat.id. destruct (N.eq_dec n 0) as [->|H]; [done|]. apply N.log2_spec. lia.
Qed.
(** The note has a line for each error *)
Theorem C84_note c t : warning c = Some t -> lines_of t = map note_of (emit_warnings c).
Proof.
  unfold warning. destruct (emit_warnings c) as [|e es] eqn:E; [done|]. intros H. apply (f_equal (fun o => match o with Some t => t | None => [] end)) in H. cbn beta iota in H. rewrite <- H. apply lines_join; [done|]. rewrite <- E. apply Forall_fmap, Forall_forall. intros x Hx.
  apply C84_sound in Hx as (i & m & n & (l & j & k & Hl & He & _) & ->). assert (newline ∉ m) as Hm.
  { pose proof (lines_none c) as Hn. rewrite Forall_forall in Hn. specialize (Hn l (elem_of_list_lookup_2 _ _ _ Hl)). destruct He as [_ [->|[-> _]]]; by apply not_elem_of_app in Hn as [_ ?]. }
  unfold compose, note_of. cbn [fst snd]. destruct (line_shown n) as [k'|]; [|done]. destruct (C84_number k') as (_ & Hd & _). rewrite !not_elem_of_app. split_and!; [apply (bool_decide_unpack _); vm_compute; exact Logic.I| |apply (bool_decide_unpack _); vm_compute; exact Logic.I|done].
  intros Hi. unfold decimal in Hd. rewrite Forall_forall in Hd. apply Hd in Hi. revert Hi. apply (bool_decide_unpack _). vm_compute. exact Logic.I.
Qed.

(** ** Examples *)
Definition ex_log : text := tex_of ["This is pdfTeX"; "! Undefined control sequence."; "l.12 @foo"; "         bar"; "! LaTeX Error: File `x.sty' not found."; ""; "Type X to quit"; "l.3 "; "! Undefined control sequence."; "l.12 @foo"].
Example C84_ex : option_map (fun t => map string_of_list_ascii (lines_of t)) (warning ex_log) = Some ["Line 3: File `x.sty' not found."; "Line 12: Undefined control sequence."].
Proof. vm_compute. reflexivity. Qed.
Fixpoint paired_b (open : bool) (ls : list text) : bool :=
  match ls with
  | [] => true
  | l :: ls => match error_line l with Some _ => negb open && paired_b true ls | None => paired_b (match number_line l with Some _ => false | None => open end) ls end
  end.
Lemma paired_b_spec ls : (paired_b false ls = true -> paired ls) /\ (paired_b true ls = true -> paired ls /\ forall i l m, ls !! i = Some l -> is_error l m -> exists j k n, j < i /\ ls !! j = Some k /\ is_place k n).
Proof.
  induction ls as [|l ls [IH1 IH2]]; [split; [by intros _ ? ?|intros _; split; [by intros ? ?|done]]|]. cbn [paired_b].
  assert (forall (H : paired ls), (forall m, is_error l m -> forall i l' m', ls !! i = Some l' -> is_error l' m' -> exists j k n, j < i /\ ls !! j = Some k /\ is_place k n) -> paired (l :: ls)) as Hc.
  { intros Hp Hf i1 i2 l1 l2 m1 m2 Hi H1 H2 H3 H4. destruct i2 as [|i2]; [lia|]. destruct i1 as [|i1].
    - injection H1 as <-. destruct (Hf m1 H2 i2 l2 m2 H3 H4) as (j & k & n & Hj & Hk & Hn). exists (S j), k, n. split_and!; [lia|lia|done|done].
    - destruct (Hp i1 i2 l1 l2 m1 m2) as (j & k & n & Ha & Hb & Hk & Hn); [lia|done..|]. exists (S j), k, n. split_and!; [lia|lia|done|done]. }
  destruct (error_line l) as [m|] eqn:El; [split; [|done]; cbn [negb andb]; intros H; destruct (IH2 H) as [A B]; by apply Hc|].
  assert (forall m, ~ is_error l m) as Hn by by apply error_line_none. split.
  - intros H. assert (paired ls) as Hp by (destruct (number_line l); by apply IH1). apply Hc; [done|]. intros m Hm. by apply Hn in Hm.
  - intros H. destruct (number_line l) as [ds|] eqn:Ed.
    + split; [apply Hc; [by apply IH1|intros m Hm; by apply Hn in Hm]|]. intros i l' m Hi Hm. destruct i as [|i]; [injection Hi as <-; by apply Hn in Hm|]. exists 0, l, (number_of ds). split_and!; [lia|done|]. apply number_line_spec. by exists ds.
    + destruct (IH2 H) as [A B]. split; [apply Hc; [done|intros m Hm; by apply Hn in Hm]|]. intros i l' m Hi Hm. destruct i as [|i]; [injection Hi as <-; by apply Hn in Hm|]. destruct (B i l' m Hi Hm) as (j & k & n & ? & ? & ?).
      exists (S j), k, n. split_and!; [lia|done|done].
Qed.
Example C84_ex_paired : paired (lines_of ex_log).
Proof. apply (proj1 (paired_b_spec _)). vm_compute. reflexivity. Qed.

(** ** What does not hold *)
(** An error without its place hides the next one, and takes its place *)
Theorem C84_hidden_refuted : exists c m1 m2, (exists i l, lines_of c !! i = Some l /\ is_error l m2) /\ error_at (lines_of c) 1 m2 5 /\ emit_warnings c = [(Some 5%N, m1)] /\ m1 <> m2.
Proof.
  exists (tex_of ["! Emergency stop."; "! Missing $ inserted."; "l.5 x"]), (chars "Emergency stop."), (chars "Missing $ inserted."). split_and!; [| |vm_compute; reflexivity|by vm_compute].
  - exists 1, (chars "! Missing $ inserted."). split; [by vm_compute|]. apply error_line_spec. by vm_compute.
  - exists (chars "! Missing $ inserted."), 2, (chars "l.5 x"). split_and!; [by vm_compute|apply error_line_spec; by vm_compute|lia|by vm_compute|apply number_line_spec; exists (chars "5"); by vm_compute|lia].
Qed.
(** The last error, without a place, is not reported *)
Theorem C84_last_refuted : exists c l m, lines_of c = [l] /\ is_error l m /\ warning c = None.
Proof.
  exists (tex_of ["! Emergency stop."]), (chars "! Emergency stop."), (chars "Emergency stop."). split_and!; [by vm_compute|apply error_line_spec; by vm_compute|by vm_compute].
Qed.
Print Assumptions C84_sound.
Print Assumptions C84_complete.
Print Assumptions C84_sorted.
Print Assumptions C84_warning.
Print Assumptions C84_number.
Print Assumptions C84_note.
