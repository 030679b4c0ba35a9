(** * RegexProofs: expressions that look at one line at a time *)
From Verif Require Export RegexModel.
From Verif Require Import LangModel BookletModel BookletSpec BookletProofs2.
From Coq Require Import Ascii String Lia.
From stdpp Require Import base list.
Local Open Scope nat_scope.

(** The texts that match *)
Inductive matches : re -> text -> Prop :=
  | LEmpty : matches REmpty []
  | LClass p c : p c = true -> matches (RClass p) [c]
  | LStar p t : Forall (fun c => p c = true) t -> matches (RStar p) t
  | LSeq a b s t : matches a s -> matches b t -> matches (RSeq a b) (s ++ t)
  | LAltL a b t : matches a t -> matches (RAlt a b) t
  | LAltR a b t : matches b t -> matches (RAlt a b) t
  | LGroup n r t : matches r t -> matches (RGroup n r) t.

Lemma star_spec p s t : t ∈ star p s <-> exists a, s = a ++ t /\ Forall (fun c => p c = true) a.
Proof.
  revert t. induction s as [|c s IH]; intros t; cbn [star].
  - rewrite elem_of_list_singleton. split; [intros ->; exists []; by split|]. intros (a & E & _). symmetry in E. by apply app_eq_nil in E as [_ ->].
  - destruct (p c) eqn:E.
    + rewrite elem_of_app, IH, elem_of_list_singleton. split.
      * intros [(a & -> & H)| ->]; [exists (c :: a); split; [done|by constructor]|exists []; by split].
      * intros (a & Ea & H). destruct a as [|d a]; [right; by rewrite Ea|]. injection Ea as <- ->. apply Forall_cons in H as [_ H]. left. by exists a.
    + rewrite elem_of_list_singleton. split; [intros ->; exists []; by split|]. intros (a & Ea & H). destruct a as [|d a]; [by rewrite Ea|]. injection Ea as <- ->.
      apply Forall_cons in H as [H _]. congruence.
Qed.
Lemma run_sound r s c t : (c, t) ∈ run r s -> exists m, s = m ++ t /\ matches r m.
Proof.
  revert s c t. induction r as [|p|p|a IHa b IHb|a IHa b IHb|n r IH]; intros s cs t H; cbn [run] in H.
  - apply elem_of_list_singleton in H. injection H as -> ->. exists []. split; [done|constructor].
  - destruct s as [|d s]; [by apply elem_of_nil in H|]. destruct (p d) eqn:E; [|by apply elem_of_nil in H]. apply elem_of_list_singleton in H. injection H as -> ->. exists [d]. split; [done|by constructor].
  - apply elem_of_list_fmap in H as (x & [= -> ->] & H). apply star_spec in H as (a & -> & H). exists a. split; [done|by constructor].
  - apply elem_of_list_bind in H as ([c1 s1] & H & H1). apply elem_of_list_fmap in H as ([c2 s2] & [= -> ->] & H2). cbn [snd] in *. apply IHa in H1 as (m1 & -> & L1). apply IHb in H2 as (m2 & -> & L2).
    exists (m1 ++ m2). split; [by rewrite app_assoc|by constructor].
  - apply elem_of_app in H as [H|H]; [apply IHa in H as (m & -> & L)|apply IHb in H as (m & -> & L)]; exists m; (split; [done|]); [by constructor|by apply LAltR].
  - apply elem_of_list_fmap in H as ([c1 s1] & [= -> ->] & H). apply IH in H as (m & E & L). exists m. split; [done|by constructor].
Qed.
Lemma run_complete r m t : matches r m -> exists c, (c, t) ∈ run r (m ++ t).
Proof.
  intros L. revert t. induction L as [|p c Hc|p l Hl|a b s l La IHa Lb IHb|a b l L IH|a b l L IH|n r l L IH]; intros t; cbn [run].
  - exists []. by apply elem_of_list_singleton.
  - exists []. cbn [app]. rewrite Hc. by apply elem_of_list_singleton.
  - exists []. apply elem_of_list_fmap. exists t. split; [done|]. apply star_spec. by exists l.
  - destruct (IHa (l ++ t)) as [c1 H1]. destruct (IHb t) as [c2 H2]. exists (c1 ++ c2). apply elem_of_list_bind. exists (c1, l ++ t). split; [|by rewrite <- app_assoc].
    apply elem_of_list_fmap. by exists (c2, t).
  - destruct (IH t) as [c H]. exists c. apply elem_of_app. by left.
  - destruct (IH t) as [c H]. exists c. apply elem_of_app. by right.
  - destruct (IH t) as [c H]. eexists. apply elem_of_list_fmap. exists (c, t). by split.
Qed.

(** No class has the newline *)
Fixpoint within_line (r : re) : Prop :=
  match r with
  | REmpty => True
  | RClass p | RStar p => p newline = false
  | RSeq a b | RAlt a b => within_line a /\ within_line b
  | RGroup _ r => within_line r
  end.
Definition then_more (t : text) (x : caps * text) : caps * text := (fst x, snd x ++ newline :: t).
Lemma star_line p l t : p newline = false -> star p (l ++ newline :: t) = map (fun s => s ++ newline :: t) (star p l).
Proof. intros Hp. induction l as [|c l IH]; cbn [app star]; [by rewrite Hp|]. destruct (p c); [|done]. by rewrite map_app, IH. Qed.
Lemma run_short r s c t : (c, t) ∈ run r s -> length t <= length s.
Proof. intros H. apply run_sound in H as (m & -> & _). rewrite app_length. lia. Qed.
Lemma run_line r l t : within_line r -> run r (l ++ newline :: t) = map (then_more t) (run r l).
Proof.
  revert l. induction r as [|p|p|a IHa b IHb|a IHa b IHb|n r IH]; intros l H; cbn [run within_line] in *.
  - done.
  - destruct l as [|c l]; cbn [app]; [by rewrite H|]. by destruct (p c).
  - rewrite star_line by done. by rewrite !map_map.
  - destruct H as [Ha Hb]. rewrite IHa by done. induction (run a l) as [|x xs IHx]; [done|]. cbn [map mbind list_bind]. rewrite map_app. f_equal; [|apply IHx].
    destruct x as [c s]. cbn [then_more fst snd]. rewrite IHb by done. by rewrite !map_map.
  - destruct H as [Ha Hb]. by rewrite map_app, IHa, IHb.
  - rewrite IH, !map_map by done. apply map_ext_in. intros [c s] Hin. apply elem_of_list_In in Hin. apply run_short in Hin. unfold then_more. cbn [fst snd]. do 3 f_equal.
    rewrite !app_length. cbn [length]. replace (length l + S (length t) - (length s + S (length t))) with (length l - length s) by lia. rewrite take_app_le; [done|lia].
Qed.

(** ** A whole line *)
Lemma dot_spec t : Forall (fun c => dot c = true) t <-> newline ∉ t.
Proof.
  rewrite Forall_forall. unfold dot. split.
  - intros H Hn. specialize (H _ Hn). by rewrite bool_decide_true in H.
  - intros H c Hc. rewrite bool_decide_false; [done|]. by intros ->.
Qed.
(** The first thing tried *)
Lemma star_head p l : Forall (fun c => p c = true) l -> exists r, star p l = [] :: r.
Proof. induction 1 as [|c l Hc _ [r IH]]; cbn [star]; [by eexists|]. rewrite Hc, IH. by eexists. Qed.
Lemma line_lang body l : newline ∉ l -> run (line_re body) l <> [] <-> exists a m b, l = a ++ m ++ b /\ matches body m.
Proof.
  intros Hl. split.
  - intros H. destruct (run (line_re body) l) as [|[c t] xs] eqn:E; [done|]. assert ((c, t) ∈ run (line_re body) l) as Hin by (rewrite E; by left). apply run_sound in Hin as (m & -> & L).
    inversion L as [| | |? ? a t1 La Lb E1 E2| | |]; subst. inversion Lb as [| | |? ? m2 b Lm Ls E1 E2| | |]; subst. exists a, m2, (b ++ t). split; [by rewrite <- !app_assoc|done].
  - intros (a & m & b & -> & L). destruct (run_complete (line_re body) (a ++ m ++ b) []) as [c H].
    + rewrite !not_elem_of_app in Hl. destruct Hl as (H1 & H2 & H3). repeat constructor; [by apply dot_spec|done|by apply dot_spec].
    + rewrite app_nil_r in H. intros E. rewrite E in H. by apply elem_of_nil in H.
Qed.
Lemma run_tail body c l : newline ∉ c :: l -> run (line_re body) (c :: l) = [] -> run (line_re body) l = [].
Proof.
  intros Hl H. destruct (decide (run (line_re body) l = [])) as [E|E]; [done|exfalso]. pose proof Hl as Hl'. apply not_elem_of_cons in Hl' as [_ Hl']. apply line_lang in E as (a & m & b & -> & L); [|done].
  assert (run (line_re body) (c :: a ++ m ++ b) <> []) as H'; [|done]. apply line_lang; [done|]. by exists (c :: a), m, b.
Qed.
Lemma run_head_all body l c t xs : newline ∉ l -> run (line_re body) l = (c, t) :: xs -> t = [].
Proof.
  intros Hl E. unfold line_re in E. cbn [run] in E. 
  assert (forall (ys : list (caps * text)), Forall (fun y => newline ∉ snd y) ys -> forall z zs, (ys ≫= fun x => map (fun y => (fst x ++ fst y, snd y)) (run (RSeq body (RStar dot)) (snd x))) = z :: zs -> snd z = []) as Hh.
  { induction 1 as [|[c1 s1] ys Hy _ IH]; intros z zs Ez; [done|]. cbn [mbind list_bind snd fst] in Ez.
    destruct (run (RSeq body (RStar dot)) s1) as [|[c2 s2] rs] eqn:Er; [by apply IH in Ez|]. cbn [map app] in Ez. injection Ez as <- _. cbn [snd].
    clear IH. cbn [run] in Er. assert (Forall (fun y : caps * text => newline ∉ snd y) (run body s1)) as Hb.
    { apply Forall_forall. intros [c3 s3] H3. apply run_sound in H3 as (m & Em & _). cbn [snd] in *. rewrite Em in Hy. by apply not_elem_of_app in Hy as [_ ?]. }
    destruct (run body s1) as [|[c3 s3] xs3]; [done|]. apply Forall_cons in Hb as [Hb _]. cbn [mbind list_bind snd fst] in *.
    destruct (star_head dot s3) as [r Hr]; [by apply dot_spec|]. rewrite Hr in Er. cbn [map app] in Er. by injection Er as _ <- _. }
  change t with (snd (c, t)). eapply Hh; [|exact E].
  apply Forall_fmap, Forall_forall. intros s Hs. cbn. apply star_spec in Hs as (a & -> & _). by apply not_elem_of_app in Hl as [_ ?].
Qed.

(** The groups of a line: those of the match that is tried first *)
Definition line_caps (r : re) (l : text) : option caps := match run r l with x :: _ => Some (fst x) | [] => None end.
Lemma search_none body l : newline ∉ l -> run (line_re body) l = [] -> search (line_re body) l = None.
Proof.
  induction l as [|c l IH]; intros Hl E; cbn [search]; rewrite E; [done|]. apply IH; [by apply not_elem_of_cons in Hl as [_ ?]|by eapply run_tail].
Qed.
Section lines.
  Context (body : re) (H1 : within_line body) (H0 : ~ matches body []).
  Lemma line_one : within_line (line_re body).
  Proof using H1. repeat split; done. Qed.
  Lemma run_nil : run (line_re body) [] = [].
  Proof using H0.
    destruct (decide (run (line_re body) [] = [])) as [E|E]; [done|]. apply line_lang in E as (a & m & b & E & L); [|by apply not_elem_of_nil]. symmetry in E. apply app_eq_nil in E as [_ E].
    apply app_eq_nil in E as [-> _]. done.
  Qed.
  Lemma run_newline t : run (line_re body) (newline :: t) = [].
  Proof using H0 H1. pose proof (run_line (line_re body) [] t line_one) as E. rewrite run_nil in E. exact E. Qed.
  Lemma search_line l t : newline ∉ l -> search (line_re body) (l ++ newline :: t) = match run (line_re body) l with (c, _) :: _ => Some (c, newline :: t) | [] => search (line_re body) t end.
  Proof using H0 H1.
    intros Hl. destruct (run (line_re body) l) as [|[c s] xs] eqn:E.
    - induction l as [|d l IH]; cbn [app search].
      + by rewrite run_newline.
      + pose proof (run_line (line_re body) (d :: l) t line_one) as E'. cbn [app] in E'. rewrite E', E. cbn [map]. apply IH; [by apply not_elem_of_cons in Hl as [_ ?]|by eapply run_tail].
    - pose proof (run_head_all body l c s xs Hl E) as ->. pose proof (run_line (line_re body) l t line_one) as E'. rewrite E in E'. cbn [map then_more fst snd app] in E'.
      destruct (l ++ newline :: t) as [|d r] eqn:El; cbn [search]; by rewrite E'.
  Qed.
  Lemma search_end l : newline ∉ l -> search (line_re body) l = match run (line_re body) l with (c, _) :: _ => Some (c, []) | [] => None end.
  Proof using H0.
    intros Hl. destruct (run (line_re body) l) as [|[c s] xs] eqn:E; [by apply search_none|]. pose proof (run_head_all body l c s xs Hl E) as ->.
    destruct l; cbn [search]; by rewrite E.
  Qed.
  Lemma fuel_newline fuel t : captures_fuel fuel (line_re body) (newline :: t) = captures_fuel fuel (line_re body) t.
  Proof using H0 H1. destruct fuel as [|fuel]; [done|]. cbn [captures_fuel]. pose proof (search_line [] t) as E. cbn [app] in E. rewrite E by by apply not_elem_of_nil. by rewrite run_nil. Qed.
  Lemma first_line (t : text) : newline ∉ t \/ exists l r, t = l ++ newline :: r /\ newline ∉ l.
  Proof.
    induction t as [|c t [IH|(l & r & -> & IH)]]; [left; by apply not_elem_of_nil| |].
    - destruct (decide (c = newline)) as [->|E]; [right; exists [], t; split; [done|by apply not_elem_of_nil]|]. left. rewrite not_elem_of_cons. split; [congruence|done].
    - right. destruct (decide (c = newline)) as [->|E]; [exists [], (l ++ newline :: r); split; [done|by apply not_elem_of_nil]|]. exists (c :: l), r. split; [done|]. rewrite not_elem_of_cons. split; [congruence|done].
  Qed.
  Lemma captures_lines_fuel fuel t : length t < fuel -> captures_fuel fuel (line_re body) t = omap (line_caps (line_re body)) (lines_of t).
  Proof using H0 H1.
    remember (length t) as n eqn:En. revert t En fuel. induction n as [n IH] using lt_wf_ind. intros t -> fuel Hf. destruct fuel as [|fuel]; [lia|]. unfold lines_of. destruct (first_line t) as [Hn|(l & r & -> & Hn)].
    - rewrite split_no by done. cbn [captures_fuel]. rewrite search_end by done. cbn [omap list_omap]. unfold line_caps at 1. destruct (run (line_re body) t) as [|[c s] xs]; [done|]. cbn [fst snd].
      destruct fuel as [|fuel]; [done|]. cbn [captures_fuel search]. by rewrite run_nil.
    - rewrite split_app, omap_app, split_no by done. rewrite app_length in *. cbn [length] in *. cbn [omap list_omap]. unfold line_caps at 1. destruct (run (line_re body) l) as [|[c s] xs] eqn:E.
      + cbn [app]. assert (captures_fuel (S fuel) (line_re body) (l ++ newline :: r) = captures_fuel (S fuel) (line_re body) r) as -> by (cbn [captures_fuel]; by rewrite search_line, E).
        eapply (IH (length r)); [lia|done|lia].
      + cbn [captures_fuel]. rewrite search_line, E by done. cbn [fst snd app]. f_equal. rewrite fuel_newline. eapply (IH (length r)); [lia|done|lia].
  Qed.
  Lemma captures_lines t : captures_iter (line_re body) t = omap (line_caps (line_re body)) (lines_of t).
  Proof using H0 H1. apply captures_lines_fuel. lia. Qed.
End lines.
(** The match of a line begins as late as it can *)
Lemma star_first p l (f : text -> list (caps * text)) x xs : star p l ≫= f = x :: xs -> exists a s, l = a ++ s /\ Forall (fun c => p c = true) a /\ head (f s) = Some x /\ forall a' s', l = a' ++ s' -> Forall (fun c => p c = true) a' -> length a < length a' -> f s' = [].
Proof.
  revert x xs. induction l as [|c l IH]; intros x xs E; cbn [star] in E.
  - cbn in E. rewrite app_nil_r in E. exists [], []. split_and!; [done|constructor|by rewrite E|]. intros a' s' E' _ H. symmetry in E'. apply app_eq_nil in E' as [-> _]. cbn in H. lia.
  - destruct (p c) eqn:Ec.
    + rewrite bind_app in E. destruct (star p l ≫= f) as [|y ys] eqn:Ey.
      * cbn in E. rewrite app_nil_r in E. exists [], (c :: l). split_and!; [done|constructor|by rewrite E|]. intros a' s' E' Ha H. destruct a' as [|d a']; [cbn in H; lia|]. injection E' as <- ->.
        apply Forall_cons in Ha as [_ Ha]. destruct (f s') as [|z zs] eqn:Ez; [done|exfalso]. assert (z ∈ star p (a' ++ s') ≫= f) as Hin; [|rewrite Ey in Hin; by apply elem_of_nil in Hin].
        apply elem_of_list_bind. exists s'. split; [rewrite Ez; by left|]. apply star_spec. by exists a'.
      * cbn [app] in E. injection E as -> _. destruct (IH _ _ eq_refl) as (a & s & -> & Ha & Hh & Hm). exists (c :: a), s. split_and!; [done|by constructor|done|].
        intros a' s' E' Ha' H. destruct a' as [|d a']; [cbn in H; lia|]. injection E' as <- E'. apply Forall_cons in Ha' as [_ Ha']. cbn [length] in H. apply (Hm a' s'); [done|done|lia].
    + cbn in E. rewrite app_nil_r in E. exists [], (c :: l). split_and!; [done|constructor|by rewrite E|]. intros a' s' E' Ha H. destruct a' as [|d a']; [cbn in H; lia|]. injection E' as <- _. apply Forall_cons in Ha as [Ha _]. congruence.
Qed.
Lemma run_star_seq p k s : run (RSeq (RStar p) k) s = star p s ≫= run k.
Proof.
  cbn [run]. induction (star p s) as [|x xs IH]; [done|]. cbn [map mbind list_bind fst snd app]. f_equal; [|apply IH]. rewrite <- (map_id (run k x)) at 2. apply map_ext. by intros [].
Qed.
