(** * SanityProofs3: the groups of subtasks *)
From Coq Require Import Ascii String.
From Verif Require Import SanityModel SanitySpec SanityProofs.
From stdpp Require Import base list gmap sorting.

Definition mutual (deps : gset (nat * nat)) (a b : nat) : bool := bool_decide ((a, b) ∈ deps) && bool_decide ((b, a) ∈ deps).
Lemma mutual_spec deps a b : mutual deps a b = true <-> (a, b) ∈ deps /\ (b, a) ∈ deps.
Proof. unfold mutual. rewrite andb_true_iff, !bool_decide_eq_true. done. Qed.
Lemma group_loop_Some deps a l acc r : group_loop deps a l acc = Some r ->
  r = acc ++ List.filter (mutual deps a) l /\ forall b, b ∈ l -> mutual deps a b = true -> a < b.
Proof.
  revert acc. induction l as [|x l IH]; intros acc; cbn.
  - intros [= <-]. rewrite app_nil_r. split; [done|]. intros b Hb. by apply elem_of_nil in Hb.
  - change (bool_decide ((a, x) ∈ deps) && bool_decide ((x, a) ∈ deps)) with (mutual deps a x). destruct (mutual deps a x) eqn:E.
    + case_bool_decide as Hlt; [|done]. intros H. apply IH in H as [-> H]. rewrite <- app_assoc. split; [done|]. intros b [->|Hb]%elem_of_cons Hm; [done|by apply H].
    + intros H. apply IH in H as [-> H]. split; [done|]. intros b [->|Hb]%elem_of_cons Hm; [congruence|by apply H].
Qed.
Lemma group_loop_ok deps a l acc : (forall b, b ∈ l -> mutual deps a b = true -> a < b) ->
  group_loop deps a l acc = Some (acc ++ List.filter (mutual deps a) l).
Proof.
  revert acc. induction l as [|x l IH]; intros acc H; cbn; [by rewrite app_nil_r|].
  change (bool_decide ((a, x) ∈ deps) && bool_decide ((x, a) ∈ deps)) with (mutual deps a x). destruct (mutual deps a x) eqn:E.
  - rewrite bool_decide_true by (apply H; [left|done]). rewrite IH; [by rewrite <- app_assoc|]. intros b Hb. apply H. by right.
  - rewrite IH; [done|]. intros b Hb. apply H. by right.
Qed.
Lemma filter_NoDup {A} (f : A -> bool) l : NoDup l -> NoDup (List.filter f l).
Proof.
  induction 1 as [|x l Hx Hl IH]; cbn; [constructor|]. destruct (f x); [|done]. constructor; [|done]. intros H. apply Hx.
  apply elem_of_list_In, filter_In in H as [H _]. by apply elem_of_list_In.
Qed.
Lemma elem_of_lfilter {A} (f : A -> bool) l x : x ∈ List.filter f l <-> x ∈ l /\ f x = true.
Proof. rewrite !elem_of_list_In. apply filter_In. Qed.

(** The groups that are reported *)
Definition is_group (deps : gset (nat * nat)) (l : list nat) (a : nat) (g : list nat) : Prop :=
  StronglySorted lt g /\ (forall b, b ∈ g <-> b = a \/ (b ∈ l /\ mutual deps a b = true)) /\
  (forall b, b ∈ l -> mutual deps a b = true -> a < b) /\ exists b, b ∈ l /\ mutual deps a b = true.
Lemma group_of deps l a g : NoDup l -> (forall x, (x, x) ∉ deps) ->
  (match group_loop deps a l [a] with
   | Some sts => if bool_decide (1 < length sts) then Some (DSameSolutions (merge_sort le sts)) else None
   | None => None
   end = Some (DSameSolutions g)) <-> is_group deps l a g.
Proof.
  intros HN Hirr. assert (Hsort : forall r, NoDup r -> StronglySorted lt (merge_sort le r)).
  { intros r Hr. apply sorted_strict; [apply StronglySorted_merge_sort; [intros x y z; lia|intros x y; lia]|by rewrite merge_sort_Permutation]. }
  assert (HNa : NoDup (a :: List.filter (mutual deps a) l)).
  { constructor; [|by apply filter_NoDup]. rewrite elem_of_lfilter. intros [_ Hm]. apply mutual_spec in Hm as [Hm _]. by apply (Hirr a). }
  split.
  - destruct (group_loop deps a l [a]) as [r|] eqn:E; [|done]. case_bool_decide as Hlen; [|done]. intros [= <-]. apply group_loop_Some in E as [-> H].
    cbn [app] in *. split; [by apply Hsort|]. split; [|split; [done|]].
    + intros b. rewrite merge_sort_Permutation, elem_of_cons, elem_of_lfilter. done.
    + cbn in Hlen. destruct (List.filter (mutual deps a) l) as [|b r] eqn:E; [cbn in Hlen; lia|]. exists b. apply elem_of_lfilter. rewrite E. left.
  - intros (Hs & Hg & Hlt & b & Hb & Hm). rewrite group_loop_ok by done. cbn [app].
    assert (b ∈ List.filter (mutual deps a) l) as Hbf by (by apply elem_of_lfilter). rewrite bool_decide_true by (cbn; destruct (List.filter _ l); [by apply elem_of_nil in Hbf|cbn; lia]).
    do 2 f_equal. assert (AntiSymm eq lt) by (intros x y H1 H2; lia). apply (StronglySorted_unique lt).
    + by apply Hsort.
    + done.
    + rewrite merge_sort_Permutation. apply NoDup_Permutation; [done| |].
      * clear -Hs. induction Hs as [|x l Hl IH Hx]; constructor; [|done]. intros H. rewrite Forall_forall in Hx. specialize (Hx x H). lia.
      * intros x. rewrite Hg, elem_of_cons, elem_of_lfilter. done.
Qed.
Lemma same_solutions_shape deps l d : d ∈ same_solutions deps l -> exists g, d = DSameSolutions g.
Proof.
  unfold same_solutions. intros H. apply elem_of_list_omap in H as (a & _ & H). destruct (group_loop _ _ _ _); [|done]. case_bool_decide; [|done]. injection H as <-. by eexists.
Qed.
Lemma same_solutions_spec deps l g : NoDup l -> (forall x, (x, x) ∉ deps) ->
  DSameSolutions g ∈ same_solutions deps l <-> exists a, a ∈ l /\ is_group deps l a g.
Proof.
  intros HN Hirr. unfold same_solutions. rewrite elem_of_list_omap. split; intros (a & Ha & H); exists a; (split; [done|]); by apply group_of.
Qed.
Lemma is_group_head deps l a g : is_group deps l a g -> exists r, g = a :: r.
Proof.
  intros (Hs & Hg & Hlt & _). destruct g as [|x g]; [exfalso; apply (not_elem_of_nil a), Hg; by left|]. exists g. f_equal.
  apply StronglySorted_inv in Hs as [_ Hs]. rewrite Forall_forall in Hs. destruct (proj1 (Hg x)) as [?|[Hx Hm]]; [left|done|].
  specialize (Hlt x Hx Hm). assert (a ∈ x :: g) as Ha by (apply Hg; by left). apply elem_of_cons in Ha as [->|Ha]; [lia|]. specialize (Hs a Ha). lia.
Qed.
Lemma same_solutions_NoDup deps l : NoDup l -> (forall x, (x, x) ∉ deps) -> NoDup (same_solutions deps l).
Proof.
  intros HN Hirr. unfold same_solutions.
  assert (forall l', NoDup l' -> NoDup (omap (fun st1 => match group_loop deps st1 l [st1] with
                     | Some sts => if bool_decide (1 < length sts) then Some (DSameSolutions (merge_sort le sts)) else None
                     | None => None end) l')) as H; [|by apply H].
  intros l' HN'. induction HN' as [|x l' Hx Hl' IH]; [constructor|].
  cbn [omap list_omap]. destruct (match group_loop deps x l [x] with Some _ => _ | None => _ end) as [d|] eqn:E; [|done]. constructor; [|done]. intros Hin.
  assert (exists g, d = DSameSolutions g) as [g ->]. { destruct (group_loop deps x l [x]); [|done]. case_bool_decide; [|done]. injection E as <-. by eexists. }
  apply elem_of_list_omap in Hin as (y & Hy & Ey). apply group_of in E; [|done|done]. apply group_of in Ey; [|done|done].
  apply is_group_head in E as [r ->]. apply is_group_head in Ey as [r' [= -> _]]. done.
Qed.
(** ** The pairs in the wrong order *)
Lemma elem_of_to_swap deps l a b : (a, b) ∈ to_swap deps l <-> a ∈ l /\ b ∈ l /\ a < b /\ (a, b) ∈ deps /\ (b, a) ∉ deps.
Proof.
  unfold to_swap. rewrite elem_of_list_bind. split.
  - intros (x & H & Hx). apply elem_of_list_bind in H as (y & H & Hy). destruct (_ && _) eqn:E; [|by apply elem_of_nil in H]. apply elem_of_list_singleton in H as [= -> ->].
    apply andb_true_iff in E as [E E3]. apply andb_true_iff in E as [E1 E2]. apply bool_decide_eq_true in E1, E2. apply negb_true_iff, bool_decide_eq_false in E3. done.
  - intros (Ha & Hb & Hlt & H1 & H2). exists a. split; [|done]. apply elem_of_list_bind. exists b. split; [|done].
    rewrite !bool_decide_true, bool_decide_false by done. by left.
Qed.
Lemma bind_NoDup {A B} (f : A -> list B) l : (forall a a' x, a ∈ l -> a' ∈ l -> x ∈ f a -> x ∈ f a' -> a = a') -> (forall a, a ∈ l -> NoDup (f a)) -> NoDup l -> NoDup (l ≫= f).
Proof.
  intros H1 H2 HN. induction HN as [|a l Ha Hl IH]; [constructor|]. rewrite bind_cons. apply NoDup_app. split; [apply H2; left|]. split.
  - intros x Hx Hx'. apply elem_of_list_bind in Hx' as (a' & Hx' & Ha'). apply Ha. rewrite (H1 a a' x); [done|left|by right|done|done].
  - apply IH; [intros b b' x Hb Hb'; apply H1; by right|intros b Hb; apply H2; by right].
Qed.
Lemma to_swap_NoDup deps l : NoDup l -> NoDup (to_swap deps l).
Proof.
  intros HN. unfold to_swap. assert (forall l', NoDup l' -> NoDup (l' ≫= fun a => l ≫= fun b =>
      if bool_decide (a < b) && bool_decide ((a, b) ∈ deps) && negb (bool_decide ((b, a) ∈ deps)) then [(a, b)] else [])) as H; [|by apply H].
  intros l' HN'. apply bind_NoDup; [| |done].
  - intros a a' [x y] Ha Ha' H H'. apply elem_of_list_bind in H as (b & H & _). apply elem_of_list_bind in H' as (b' & H' & _).
    destruct (bool_decide (a < b) && _ && _); [|by apply elem_of_nil in H]. destruct (bool_decide (a' < b') && _ && _); [|by apply elem_of_nil in H'].
    apply elem_of_list_singleton in H, H'. congruence.
  - intros a Ha. apply bind_NoDup; [| |done].
    + intros b b' [x y] Hb Hb' H H'. destruct (bool_decide (a < b) && _ && _); [|by apply elem_of_nil in H]. destruct (bool_decide (a < b') && _ && _); [|by apply elem_of_nil in H'].
      apply elem_of_list_singleton in H, H'. congruence.
    + intros b Hb. destruct (_ && _); [apply NoDup_singleton|constructor].
Qed.
