(** * StmtProofs: the expressions of the statement *)
From Verif Require Export StmtModel StmtSpec.
From Verif Require Import RegexProofs BookletSpec BookletProofs2 LatexSpec LatexProps.
From Coq Require Import Ascii String NArith Lia.
From stdpp Require Import base list.
Local Open Scope nat_scope.

(** ** The first that succeeds *)
Fixpoint pick {A B} (l : list A) (k : A -> option B) : option B := match l with [] => None | x :: l => match k x with Some v => Some v | None => pick l k end end.
Lemma pick_app {A B} (l1 l2 : list A) (k : A -> option B) : pick (l1 ++ l2) k = match pick l1 k with Some v => Some v | None => pick l2 k end.
Proof. induction l1 as [|x l1 IH]; [done|]. cbn [app pick]. destruct (k x); [done|apply IH]. Qed.
Lemma pick_map {A B C} (f : A -> B) (l : list A) (k : B -> option C) : pick (map f l) k = pick l (fun x => k (f x)).
Proof. induction l as [|x l IH]; [done|]. cbn [map pick]. by rewrite IH. Qed.
Lemma pick_bind {A B C} (f : A -> list B) (l : list A) (k : B -> option C) : pick (l ≫= f) k = pick l (fun x => pick (f x) k).
Proof. induction l as [|x l IH]; [done|]. cbn [mbind list_bind pick]. rewrite pick_app. destruct (pick (f x) k); [done|apply IH]. Qed.
Lemma pick_head {A} (l : list A) : head l = pick l Some.
Proof. by destruct l. Qed.
Lemma pick_Some {A B} (l : list A) (k : A -> option B) v : pick l k = Some v -> exists x, x ∈ l /\ k x = Some v.
Proof. induction l as [|x l IH]; [done|]. cbn [pick]. destruct (k x) eqn:E; [intros [= ->]; exists x; split; [left|done]|]. intros H. destruct (IH H) as (y & Hy & Ey). exists y. split; [by right|done]. Qed.
Lemma pick_None {A B} (l : list A) (k : A -> option B) x : pick l k = None -> x ∈ l -> k x = None.
Proof. induction l as [|y l IH]; [intros _ H; by apply elem_of_nil in H|]. cbn [pick]. destruct (k y) eqn:E; [done|]. intros H Hx. apply elem_of_cons in Hx as [->|Hx]; [done|by apply IH]. Qed.
Lemma pick_seq {B} a b s (k : caps * text -> option B) : pick (run (RSeq a b) s) k = pick (run a s) (fun x => pick (run b (snd x)) (fun y => k (fst x ++ fst y, snd y))).
Proof. cbn [run]. rewrite pick_bind. induction (run a s) as [|x xs IH]; [done|]. cbn [pick]. by rewrite pick_map, IH. Qed.
Lemma pick_group {B} n r s (k : caps * text -> option B) : pick (run (RGroup n r) s) k = pick (run r s) (fun x => k ((n, take (length s - length (snd x)) s) :: fst x, snd x)).
Proof. cbn [run]. apply pick_map. Qed.
Lemma pick_star_first {B} p s (k : text -> option B) v : pick (star p s) k = Some v ->
  exists a t, s = a ++ t /\ Forall (fun c => p c = true) a /\ k t = Some v /\ forall a' t', s = a' ++ t' -> Forall (fun c => p c = true) a' -> length a < length a' -> k t' = None.
Proof.
  revert v. induction s as [|c s IH]; intros v E; cbn [star] in E.
  - cbn in E. exists [], []. destruct (k []) eqn:Ek; [|done]. split_and!; [done|constructor|congruence|]. intros a' t' E' _ H. symmetry in E'. apply app_eq_nil in E' as [-> _]. cbn in H. lia.
  - destruct (p c) eqn:Ec.
    + rewrite pick_app in E. destruct (pick (star p s) k) as [w|] eqn:Ew.
      * injection E as ->. destruct (IH _ eq_refl) as (a & t & -> & Ha & Hk & Hm). exists (c :: a), t. split_and!; [done|by constructor|done|].
        intros a' t' E' Ha' H. destruct a' as [|d a']; [cbn in H; lia|]. injection E' as <- E'. apply Forall_cons in Ha' as [_ Ha']. cbn [length] in H. apply (Hm a' t'); [done|done|lia].
      * cbn in E. destruct (k (c :: s)) eqn:Ek; [|done]. exists [], (c :: s). split_and!; [done|constructor|congruence|]. intros a' t' E' Ha' H. destruct a' as [|d a']; [cbn in H; lia|]. injection E' as <- ->.
        apply Forall_cons in Ha' as [_ Ha']. eapply pick_None; [exact Ew|]. apply star_spec. by exists a'.
    + cbn in E. destruct (k (c :: s)) eqn:Ek; [|done]. exists [], (c :: s). split_and!; [done|constructor|congruence|]. intros a' t' E' Ha' H. destruct a' as [|d a']; [cbn in H; lia|]. injection E' as <- _.
      apply Forall_cons in Ha' as [Ha' _]. congruence.
Qed.
(** inversion of the simple expressions *)
Lemma in_char c s x : x ∈ run (RChar c) s -> exists s', s = c :: s' /\ x = ([], s').
Proof.
  unfold RChar. cbn [run]. destruct s as [|d s]; [intros H; by apply elem_of_nil in H|]. destruct (bool_decide (d = c)) eqn:E; [|intros H; by apply elem_of_nil in H]. apply bool_decide_eq_true in E as ->.
  intros H. apply elem_of_list_singleton in H as ->. by exists s.
Qed.
Lemma in_rseq a b s x : x ∈ run (RSeq a b) s -> exists y z, y ∈ run a s /\ z ∈ run b (snd y) /\ x = (fst y ++ fst z, snd z).
Proof. cbn [run]. intros H. apply elem_of_list_bind in H as (y & H & Hy). apply elem_of_list_fmap in H as (z & -> & Hz). by exists y, z. Qed.
Lemma in_group n r s x : x ∈ run (RGroup n r) s -> exists y m, y ∈ run r s /\ s = m ++ snd y /\ matches r m /\ x = ((n, m) :: fst y, snd y).
Proof.
  cbn [run]. intros H. apply elem_of_list_fmap in H as ([c t] & -> & H). pose proof (run_sound _ _ _ _ H) as (m & E & L). exists (c, t), m. split_and!; [done|done|done|]. cbn [fst snd]. do 3 f_equal.
  rewrite E, app_length. replace (length m + length t - length t) with (length m) by lia. apply take_app.
Qed.
Lemma in_text t r s x : x ∈ run (RText t r) s -> exists s', s = t ++ s' /\ x ∈ run r s'.
Proof.
  revert s x. induction t as [|c t IH]; intros s x H; [by exists s|]. cbn [RText] in H. apply in_rseq in H as (y & z & Hy & Hz & ->). apply in_char in Hy as (s' & -> & ->). cbn [snd fst app] in *.
  apply IH in Hz as (s'' & -> & Hz). exists s''. split; [done|]. by destruct z.
Qed.
Lemma lang_text t r m : matches r m -> matches (RText t r) (t ++ m).
Proof. intros L. induction t as [|c t IH]; [done|]. cbn [RText app]. change (c :: t ++ m) with ([c] ++ (t ++ m)). constructor; [|done]. constructor. by apply bool_decide_eq_true. Qed.
Lemma lang_char c : matches (RChar c) [c].
Proof. constructor. by apply bool_decide_eq_true. Qed.
Lemma lang_plus p t : Forall (fun c => p c = true) t -> t <> [] -> matches (RPlus p) t.
Proof. intros H Ht. destruct t as [|c t]; [done|]. apply Forall_cons in H as [H1 H2]. change (c :: t) with ([c] ++ t). constructor; by constructor. Qed.
Lemma lang_plus_inv p t : matches (RPlus p) t -> Forall (fun c => p c = true) t /\ t <> [].
Proof. intros L. inversion L as [| | |? ? s u L1 L2 E1 E2| | |]; subst. inversion L1; subst. inversion L2; subst. split; [by constructor|done]. Qed.
Lemma number_spec ds : number ds <-> Forall (fun c => is_digit c = true) ds /\ ds <> [].
Proof.
  unfold number, decimal. rewrite !Forall_forall. split; intros [H1 H2].
  - split; [|done]. intros c Hc. by apply digit_spec, H2.
  - split; [done|]. intros c Hc. by apply digit_spec, H1.
Qed.
Lemma lang_number ds : matches (RPlus is_digit) ds <-> number ds.
Proof. rewrite number_spec. split; [apply lang_plus_inv|]. intros [H1 H2]. by apply lang_plus. Qed.
(** a line that has one, and the place of the last one *)
Lemma line_last body l c : newline ∉ l -> line_caps (line_re body) l = Some c ->
  exists a s t, l = a ++ s /\ pick (run (RSeq body (RStar dot)) s) Some = Some (c, t) /\ forall a' m b, l = a' ++ m ++ b -> matches body m -> length a' <= length a.
Proof.
  intros Hl. unfold line_caps. destruct (run (line_re body) l) as [|[c' t] xs] eqn:E; [done|]. intros [= ->]. unfold line_re in E. rewrite run_star_seq in E.
  apply star_first in E as (a & s & -> & Ha & Hh & Hm). exists a, s, t. split_and!; [done|by rewrite <- pick_head|]. intros a' m b E L. destruct (decide (length a' <= length a)) as [|Hn]; [done|exfalso].
  assert (newline ∉ a' /\ newline ∉ m /\ newline ∉ b) as (N1 & N2 & N3) by (rewrite E, !not_elem_of_app in Hl; done).
  specialize (Hm a' (m ++ b) E). rewrite dot_spec in Hm. specialize (Hm N1 ltac:(lia)).
  destruct (run_complete (RSeq body (RStar dot)) (m ++ b) []) as [c2 H2]; [repeat constructor; [done|by apply dot_spec]|]. rewrite app_nil_r in H2. rewrite Hm in H2. by apply elem_of_nil in H2.
Qed.
Lemma line_none body l : newline ∉ l -> line_caps (line_re body) l = None <-> forall a m b, l = a ++ m ++ b -> ~ matches body m.
Proof.
  intros Hl. unfold line_caps. pose proof (line_lang body l Hl) as H. destruct (run (line_re body) l) as [|x xs].
  - split; [|done]. intros _ a m b E L. destruct H as [_ H]. apply H; [by exists a, m, b|done].
  - split; [done|]. intros Hn. destruct H as [H _]. destruct H as (a & m & b & E & L); [done|]. exfalso. by eapply Hn.
Qed.

(** ** The new format *)
Lemma new_lang m : matches new_body m <-> m = backslash :: chars "subtask".
Proof.
  split.
  - intros L. destruct (run_complete _ _ [] L) as [c H]. rewrite app_nil_r in H. unfold new_body in H. apply in_rseq in H as (y & z & Hy & Hz & E). apply in_char in Hy as (s' & -> & ->). cbn [snd fst app] in *.
    apply in_text in Hz as (s'' & -> & Hz). cbn [run] in Hz. apply elem_of_list_singleton in Hz as ->. cbn [snd] in E. injection E as _ <-. by rewrite app_nil_r.
  - intros ->. change (backslash :: chars "subtask") with ([backslash] ++ (chars "subtask" ++ [])). constructor; [apply lang_char|]. apply lang_text. constructor.
Qed.
Lemma search_group n r s : search (RGroup n r) s = None <-> search r s = None.
Proof. induction s as [|c s IH]; cbn [search run]; [by destruct (run r [])|]. destruct (run r (c :: s)); [apply IH|done]. Qed.
Lemma search_group_rest n r s x : search r s = Some x -> exists y, search (RGroup n r) s = Some y /\ snd y = snd x.
Proof.
  revert x. induction s as [|c s IH]; intros x; cbn [search run]; [destruct (run r []); [done|]|destruct (run r (c :: s)); [apply IH|]]; intros [= ->]; eexists; split; [done|done|done|done].
Qed.
Lemma captures_group n r s : length (captures_iter (RGroup n r) s) = length (captures_iter r s).
Proof.
  unfold captures_iter. generalize (S (length s)) as fuel. intros fuel. revert s. induction fuel as [|fuel IH]; intros s; [done|]. cbn [captures_fuel]. destruct (search r s) as [x|] eqn:E.
  - destruct (search_group_rest n _ _ _ E) as (y & -> & ->). cbn [length]. by rewrite IH.
  - by rewrite (proj2 (search_group n r s) E).
Qed.
Lemma capture_app n c1 c2 t : capture n c1 = Some t -> capture n (c1 ++ c2) = Some t.
Proof.
  unfold capture. induction c1 as [|u us IH]; cbn [app List.find]; [discriminate|]. destruct (n =? fst u); [done|apply IH].
Qed.
